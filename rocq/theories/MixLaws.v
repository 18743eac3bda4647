(** * EinMix: the formula determines the result; other names *)
From Verif Require Import Py Tensor TensorFacts ListFacts SpecSem SpecGrammar SpecEinsum SpecPattern SpecForms SpecOps SpecLabels Parsing Compile Recipe Ops Backends Api
  ParseFacts ParseFacts2 ParseFacts3 StepFacts FrontFacts FrontFacts2 FrontFacts3 MainFacts MainFacts2 ReduceFacts MainFacts3 CallFacts RelabelFacts ApiFacts ApiFacts2 RelabelLaws
  Layers Einsum LayerFacts EinMix SpecEinMix MixFacts MixFacts2 MixFacts3 MixFacts4 MixFacts5 MixFacts6 MixFacts7 MixFacts8 MixFacts9 LabelFacts.

Section Unique.
  Context {A : Type} (add mul : A -> A -> A) (zero : A).
  Lemma map_Some_eq {B} (l m : list B) : map Some l = map Some m -> l = m.
  Proof. revert m. induction l as [|a l IH]; intros [|b m] H; try discriminate; [reflexivity|]. cbn in H. injection H as -> H. f_equal. apply IH, H. Qed.
  Lemma mixes_unique gl gr W R len (x w : tensor A) b y y' : NoDup (concat gr) ->
    mixes add mul zero gl gr W R len x w b y -> mixes add mul zero gl gr W R len x w b y' -> y = y'.
  Proof.
    intros Hn (Hw & Hs & Hg) (Hw' & Hs' & Hg').
    apply (grepr_unique label_eqb label_eqb_eq y y' gr len (fun ix => getr y (gindex len ix gr)) Hn); [split; [exact Hw|]; split; [exact Hs|reflexivity]|].
    split; [exact Hw'|]. split; [exact Hs'|]. intros ix Hix. unfold getr. f_equal.
    destruct (Hg ix Hix) as (xs & ws & E1 & E2 & E3). destruct (Hg' ix Hix) as (xs' & ws' & F1 & F2 & F3). cbn zeta in E3, F3.
    rewrite E1 in F1. rewrite E2 in F2. apply map_Some_eq in F1, F2. subst xs' ws'.
    destruct b as [[B b]|]; [|congruence]. destruct E3 as (c & Ec & E3). destruct F3 as (c' & Ec' & F3). congruence.
  Qed.
End Unique.

(** ** Other names *)
Section Names.
  Context (f : pystr -> pystr) (N : list pystr) (Hf : renaming f N).

  (** the old name *)
  Definition back (t : pystr) : pystr := match find (fun s => str_eqb (f s) t) N with Some s => s | None => t end.
  Lemma back_f s : In s N -> back (f s) = s.
  Proof.
    intros Hs. unfold back. destruct (find (fun t => str_eqb (f t) (f s)) N) as [t|] eqn:E.
    - apply find_some in E as [Ht E]. apply str_eqb_eq in E. apply (proj2 Hf); [right; exact Ht|right; exact Hs|exact E].
    - exfalso. apply (find_none _ _ E) in Hs. rewrite str_eqb_refl in Hs. discriminate.
  Qed.
  Definition back_label (a : label) : label := match a with LName t => LName (back t) | _ => a end.
  Definition old (a : label) : Prop := forall s, a = LName s -> In s N.
  Lemma back_rho a : old a -> back_label (rho_name f a) = a.
  Proof. destruct a as [s|i|j n]; intros H; cbn; try reflexivity. rewrite back_f by (apply H; reflexivity). reflexivity. Qed.
  Lemma rho_eqb a b : old a -> old b -> label_eqb (rho_name f a) (rho_name f b) = label_eqb a b.
  Proof.
    intros Ha Hb. destruct (label_eqb a b) eqn:E.
    - apply label_eqb_eq in E. subst. apply label_eqb_eq. reflexivity.
    - destruct (label_eqb (rho_name f a) (rho_name f b)) eqn:E'; [|reflexivity]. apply label_eqb_eq in E'.
      assert (a = b) by (rewrite <- (back_rho a Ha), <- (back_rho b Hb), E'; reflexivity). subst.
      assert (label_eqb b b = true) by (apply label_eqb_eq; reflexivity). congruence.
  Qed.
  Lemma rho_map (h : label -> nat) l : (forall a, In a l -> old a) -> map (fun a => h (back_label a)) (map (rho_name f) l) = map h l.
  Proof. intros H. rewrite map_map. apply map_ext_in. intros a Ha. rewrite back_rho by (apply H, Ha). reflexivity. Qed.
  Lemma rho_gshape (len : label -> nat) gs : (forall a, In a (concat gs) -> old a) ->
    gshape (fun a => len (back_label a)) (map (map (rho_name f)) gs) = gshape len gs.
  Proof.
    intros H. unfold gshape. rewrite map_map. apply map_ext_in. intros g Hg. rewrite rho_map; [reflexivity|].
    intros a Ha. apply H, in_concat. eauto.
  Qed.
  Lemma rho_gindex (len ix ix' : label -> nat) gs : (forall a, In a (concat gs) -> old a) -> (forall a, old a -> ix' (rho_name f a) = ix a) ->
    gindex (fun a => len (back_label a)) ix' (map (map (rho_name f)) gs) = gindex len ix gs.
  Proof.
    intros H Hix. unfold gindex. rewrite map_map. apply map_ext_in. intros g Hg.
    assert (Ho : forall a, In a g -> old a) by (intros a Ha; apply H, in_concat; eauto).
    rewrite rho_map by exact Ho. f_equal. rewrite map_map. apply map_ext_in. intros a Ha. apply Hix, Ho, Ha.
  Qed.
  Lemma rho_mem a l : old a -> (forall b, In b l -> old b) -> existsb (label_eqb (rho_name f a)) (map (rho_name f) l) = existsb (label_eqb a) l.
  Proof.
    intros Ha. induction l as [|b l IH]; intros H; [reflexivity|]. cbn [map existsb]. rewrite rho_eqb by (auto; apply H; left; reflexivity).
    rewrite IH; [reflexivity|]. intros c Hc. apply H. right. exact Hc.
  Qed.
  Lemma rho_missing gl gr : (forall a, In a (concat gl ++ concat gr) -> old a) ->
    missing (map (map (rho_name f)) gl) (map (map (rho_name f)) gr) = map (rho_name f) (missing gl gr).
  Proof.
    intros H. unfold missing. rewrite <- !concat_map.
    assert (K : forall l, incl l (concat gl) ->
      filter (fun a => negb (existsb (label_eqb a) (map (rho_name f) (concat gr)))) (map (rho_name f) l) =
      map (rho_name f) (filter (fun a => negb (existsb (label_eqb a) (concat gr))) l)).
    { induction l as [|a l IH]; intros Hl; [reflexivity|]. cbn [map filter].
      rewrite rho_mem; [|apply H, in_or_app; left; apply Hl; left; reflexivity|intros b Hb; apply H, in_or_app; right; exact Hb].
      rewrite IH by (intros b Hb; apply Hl; right; exact Hb). destruct (negb _); reflexivity. }
    apply K. intros a Ha. exact Ha.
  Qed.
  Lemma rho_assign (ix ix' : label -> nat) axs v a : (forall b, In b axs -> old b) -> (forall a, old a -> ix' (rho_name f a) = ix a) -> old a ->
    assign label_eqb ix' (map (rho_name f) axs) v (rho_name f a) = assign label_eqb ix axs v a.
  Proof.
    intros H Hix Ha. unfold assign.
    assert (E : index_of label_eqb (rho_name f a) (map (rho_name f) axs) = index_of label_eqb a axs).
    { clear Hix. induction axs as [|b axs IH]; [reflexivity|]. cbn [map index_of]. rewrite rho_eqb by (auto; apply H; left; reflexivity).
      rewrite IH; [reflexivity|]. intros c Hc. apply H. right. exact Hc. }
    rewrite E. destruct (index_of label_eqb a axs); [reflexivity|]. apply Hix, Ha.
  Qed.

  Lemma rename_written_names E : incl (keys E) N -> written_names (rename f E) = map f (written_names E).
  Proof.
    intros H. unfold written_names. rewrite (rename_keys f N Hf).
    assert (K : forall l, incl l N -> filter (fun s => negb (str_eqb s ell_name)) (map f l) = map f (filter (fun s => negb (str_eqb s ell_name)) l)).
    { induction l as [|s l IH]; intros Hl; [reflexivity|]. cbn [map filter]. rewrite (f_ell f N Hf) by (apply Hl; left; reflexivity).
      rewrite IH by (intros t Ht; apply Hl; right; exact Ht). destruct (negb _); reflexivity. }
    apply K, H.
  Qed.

  Section Mixes.
    Context {A : Type} (add mul : A -> A -> A) (zero : A).
    Context (gl gr : list (list label)) (W R : expr) (len : label -> nat).
    Context (Hold : forall a, In a (concat gl ++ concat gr) -> old a) (HW : incl (keys W) N) (HR : incl (keys R) N).
    Notation len' := (fun a => len (back_label a)).
    Notation gl' := (map (map (rho_name f)) gl).
    Notation gr' := (map (map (rho_name f)) gr).
    Definition rename_bias (b : option (expr * tensor A)) : option (expr * tensor A) := option_map (fun '(B, t) => (rename f B, t)) b.

    Lemma mixes_rename (x w : tensor A) b y : (forall B t, b = Some (B, t) -> incl (keys B) N) ->
      mixes add mul zero gl' gr' (rename f W) (rename f R) len' x w (rename_bias b) y -> mixes add mul zero gl gr W R len x w b y.
    Proof.
      intros HB (Hw & Hs & Hg).
      assert (Hl : forall a, In a (concat gl) -> old a) by (intros a Ha; apply Hold, in_or_app; auto).
      assert (Hr : forall a, In a (concat gr) -> old a) by (intros a Ha; apply Hold, in_or_app; auto).
      assert (Hm : forall a, In a (missing gl gr) -> old a) by (intros a Ha; apply filter_In in Ha as [Ha _]; apply Hl, Ha).
      split; [exact Hw|]. split; [rewrite Hs; apply rho_gshape, Hr|]. intros ix Hix.
      set (ix' := fun a => ix (back_label a)).
      assert (Ei : forall a, old a -> ix' (rho_name f a) = ix a) by (intros a Ha; unfold ix'; rewrite back_rho by exact Ha; reflexivity).
      destruct (Hg ix') as (xs & ws & E1 & E2 & E3).
      { intros a Ha. rewrite <- concat_map in Ha. apply in_map_iff in Ha as (b0 & <- & Hb0). rewrite Ei, back_rho by (apply Hr, Hb0). apply Hix, Hb0. }
      exists xs, ws. cbn zeta in *. rewrite <- E1, <- E2. unfold elements, weight_elements.
      rewrite rho_missing by exact Hold. rewrite rho_map by exact Hm. split; [|split].
      - apply map_ext_in. intros v _. f_equal. symmetry. apply rho_gindex; [exact Hl|]. intros a Ha. apply rho_assign; assumption.
      - apply map_ext_in. intros v _. f_equal. rewrite (rename_keys f N Hf), !map_map. apply map_ext_in. intros s Hs'.
        symmetry. apply (rho_assign ix ix' (missing gl gr) v (LName s) Hm Ei). intros t E. injection E as <-. apply HW, Hs'.
      - rewrite (rho_gindex len ix ix' gr Hr Ei) in E3. destruct b as [[B t]|]; cbn [rename_bias option_map] in E3; [|exact E3].
        destruct E3 as (c & Ec & E3). exists c. split; [|exact E3]. rewrite <- Ec. f_equal. unfold bias_index.
        rewrite (rename_written_names R HR), map_map. apply map_ext_in. intros s Hs'.
        assert (Hs2 : In s N) by (apply HR; apply filter_In in Hs' as [Hs' _]; exact Hs').
        rewrite (rename_keys f N Hf), (f_mem f N Hf) by (auto; apply (HB B t eq_refl)).
        destruct (str_mem s (keys B)); [|reflexivity]. symmetry. apply (Ei (LName s)). intros u E. injection E as <-. exact Hs2.
    Qed.
  End Mixes.
End Names.

(** ** Layers with other names *)
Section Layers.
  Context (f : pystr -> pystr) (N : list pystr) (Hf : renaming f N).
  Context (U : unicode) (HU : unicode_ok U).

  Lemma rename_plain E : incl (keys E) N -> plain E -> plain (rename f E).
  Proof.
    intros HN HE H. unfold rename in H. rewrite atoms_on in H. apply in_map_iff in H as (a & Ea & Ha). destruct a as [s|n|]; try discriminate. cbn in Ea. injection Ea as Ea.
    assert (s = ell_name).
    { apply (proj2 Hf); [right; apply HN, names_of_atoms, Ha|left; reflexivity|]. rewrite Ea. symmetry. apply (proj1 Hf). }
    subst s. exact (HE Ha).
  Qed.
  Lemma rename_grouped_dots E : grouped_dots (rename f E) <-> grouped_dots E.
  Proof.
    unfold grouped_dots, rename. split.
    - intros (l & Hl & Hd). apply in_map_iff in Hl as ([a|l0] & E0 & Hl); [discriminate|]. cbn in E0. injection E0 as <-.
      exists l0. split; [exact Hl|]. apply in_map_iff in Hd as ([s|n|] & E1 & Hd); try discriminate. exact Hd.
    - intros (l & Hl & Hd). exists (map (rename_atom f) l). split; [apply in_map_iff; exists (Group l); auto|]. apply in_map_iff. exists ADots. auto.
  Qed.
  Lemma rename_sizes_In sizes s z : incl (map fst sizes) N -> In s N -> (In (f s, z) (rename_sizes f sizes) <-> In (s, z) sizes).
  Proof.
    intros Hs HN. unfold rename_sizes. rewrite in_map_iff. split.
    - intros ([t z'] & E & H). injection E as E ->. assert (t = s) by (apply (proj2 Hf); [right; apply Hs, in_map_iff; exists (t, z); auto|right; exact HN|exact E]). subst. exact H.
    - intros H. exists (s, z). auto.
  Qed.
  Lemma rename_after B R : incl (keys B) N -> incl (keys R) N -> (after_dots (rename f B) (rename f R) <-> after_dots B R).
  Proof.
    intros HB HR. unfold after_dots. rewrite (rename_keys f N Hf). split; intros H pre post E s Hs K.
    - apply (H (map (rename_atom f) pre) (map (rename_atom f) post)) with (s := f s).
      + unfold rename. rewrite atoms_on, E, map_app. reflexivity.
      + apply in_map_iff. exists (AName s). auto.
      + apply in_map, K.
    - unfold rename in E. rewrite atoms_on in E. apply map_eq_app in E as (pre0 & post0 & E & E1 & E2).
      destruct post0 as [|a post0]; [discriminate|]. cbn in E2. injection E2 as Ea E2. destruct a as [t|n|]; try discriminate.
      rewrite <- E1 in Hs. apply in_map_iff in Hs as ([t|n|] & Et & Ht); try discriminate. cbn in Et. injection Et as <-.
      apply (H pre0 post0 E t Ht). apply (proj1 (f_in f N Hf t (keys B) (HR _ (names_of_atoms R t ltac:(rewrite E; apply in_or_app; left; exact Ht))) HB) K).
  Qed.
  Lemma nodup_rename l : incl l N -> length (nodup str_eq_dec (map f l)) = length (nodup str_eq_dec l).
  Proof.
    induction l as [|s l IH]; intros Hl; [reflexivity|]. cbn [map nodup].
    assert (Hs : In s N) by (apply Hl; left; reflexivity). assert (Hl' : incl l N) by (intros x Hx; apply Hl; right; exact Hx).
    destruct (in_dec str_eq_dec (f s) (map f l)) as [H|H], (in_dec str_eq_dec s l) as [H'|H'].
    - apply IH, Hl'.
    - exfalso. apply H'. exact (proj1 (f_in f N Hf s l Hs Hl') H).
    - exfalso. apply H. apply in_map, H'.
    - cbn [length]. rewrite IH by exact Hl'. reflexivity.
  Qed.

  Context (L R W B : expr) (sizes : list (pystr * Z)) (bt bt' : option pystr).
  Context (HL : incl (keys L) N) (HR : incl (keys R) N) (HW : incl (keys W) N) (HB : incl (keys B) N) (HS : incl (map fst sizes) N).
  Context (Hbias : bias_renamed U f bt bt' B).
  Context (free : forall s, In s (map fst sizes) -> ~ In s [lit "self"; lit "pattern"; lit "weight_shape"; lit "bias_shape"]).
  Context (free' : forall s, In s (map fst (rename_sizes f sizes)) -> ~ In s [lit "self"; lit "pattern"; lit "weight_shape"; lit "bias_shape"]).

  Lemma rename_unknown g : (forall a, In a g -> old N a) ->
    filter (unknown (map f (map fst sizes))) (map (rho_name f) g) = map (rho_name f) (filter (unknown (map fst sizes)) g).
  Proof.
    induction g as [|a g IH]; intros H; [reflexivity|]. cbn [map filter]. rewrite IH by (intros b Hb; apply H; right; exact Hb).
    assert (E : unknown (map f (map fst sizes)) (rho_name f a) = unknown (map fst sizes) a).
    { destruct a as [s|i|j n]; try reflexivity. cbn. rewrite (f_mem f N Hf); [reflexivity| |exact HS]. apply (H (LName s)); [left; reflexivity|reflexivity]. }
    rewrite E. destruct (unknown (map fst sizes) a); reflexivity.
  Qed.
  Lemma old_left e a : In a (concat (left_groups e L)) -> old N a.
  Proof. intros H s ->. apply in_labels in H as [H _]. apply HL, H. Qed.
  Lemma old_right e a : In a (concat (right_groups e L R)) -> old N a.
  Proof. intros H s ->. apply in_labels in H as [H _]. apply HR, H. Qed.
  Lemma rename_left e : left_groups e (rename f L) = map (map (rho_name f)) (left_groups e L).
  Proof. unfold left_groups. rewrite rename_dots. apply (rename_groups f N Hf). intros s Hs. apply HL, names_of_atoms, Hs. Qed.
  Lemma rename_right e : right_groups e (rename f L) (rename f R) = map (map (rho_name f)) (right_groups e L R).
  Proof. unfold right_groups. rewrite rename_dots, (rename_nbig f). apply (rename_groups f N Hf). intros s Hs. apply HR, names_of_atoms, Hs. Qed.

  Lemma rename_bias_fits : (forall text, bt = Some text -> exists B, bias_fits U text sizes R B) <->
    (forall text, bt' = Some text -> exists B, bias_fits U text (rename_sizes f sizes) (rename f R) B).
  Proof.
    unfold bias_renamed in Hbias. destruct bt as [t|], bt' as [t'|]; try contradiction.
    2:{ split; intros _ text E; discriminate. }
    destruct Hbias as [HB1 HB2]. split; intros H text E; injection E as <-.
    - destruct (H t eq_refl) as (B0 & [H1 H2 H3 H4]). assert (B0 = B) by (eapply (written_fun U false false t); eauto). subst B0.
      exists (rename f B). split; [exact HB2| | |].
      + rewrite !(rename_keys f N Hf), rename_numbers. destruct H2 as [H2 H2']. split; [apply (f_incl f N Hf); assumption|exact H2'].
      + rewrite (rename_keys f N Hf), rename_fst. apply (f_incl f N Hf); assumption.
      + apply rename_after; assumption.
    - destruct (H t' eq_refl) as (B0 & [H1 H2 H3 H4]). assert (B0 = rename f B) by (eapply (written_fun U false false t'); eauto). subst B0.
      exists B. split; [exact HB1| | |].
      + rewrite !(rename_keys f N Hf), rename_numbers in H2. destruct H2 as [H2 H2']. split; [exact (proj1 (f_incl f N Hf _ _ HB HR) H2)|exact H2'].
      + rewrite (rename_keys f N Hf), rename_fst in H3. exact (proj1 (f_incl f N Hf _ _ HB HS) H3).
      + exact (proj1 (rename_after B R HB HR) H4).
  Qed.

  Lemma mix_ok_rename : mix_ok U bt sizes L R W <-> mix_ok U bt' (rename_sizes f sizes) (rename f L) (rename f R) (rename f W).
  Proof.
    assert (IA : forall a b c d : list pystr, incl a d -> incl b d -> incl c d -> incl (a ++ b) d) by (intros; apply incl_app; assumption).
    assert (G : (forall g, In g (left_groups 0 L) -> length (filter (unknown (map fst sizes)) g) <= 1) <->
                (forall g, In g (left_groups 0 (rename f L)) -> length (filter (unknown (map fst (rename_sizes f sizes))) g) <= 1)).
    { rewrite rename_left, rename_fst. split; intros H g Hg.
      - apply in_map_iff in Hg as (g0 & <- & Hg). rewrite rename_unknown, map_length; [apply H, Hg|]. intros a Ha. apply (old_left 0). apply in_concat. eauto.
      - specialize (H (map (rho_name f) g) (in_map _ _ _ Hg)). rewrite rename_unknown, map_length in H; [exact H|]. intros a Ha. apply (old_left 0). apply in_concat. eauto. }
    assert (Wn : (forall i, In i W -> exists s, i = Atom (AName s)) <-> (forall i, In i (rename f W) -> exists s, i = Atom (AName s))).
    { unfold rename. split; intros H i Hi.
      - apply in_map_iff in Hi as (j & <- & Hj). destruct (H j Hj) as [s ->]. cbn. eauto.
      - destruct (H (on_atoms (rename_atom f) i) (in_map _ _ _ Hi)) as [s E]. destruct i as [[t|n|]|l]; cbn in E; try discriminate. eauto. }
    assert (Wl : length (nodup str_eq_dec (written_names (rename f L) ++ written_names (rename f R) ++ written_names (rename f W))) =
                 length (nodup str_eq_dec (written_names L ++ written_names R ++ written_names W))).
    { rewrite !(rename_written_names f N Hf) by assumption. rewrite <- !map_app. apply nodup_rename.
      apply incl_app; [|apply incl_app]; intros s Hs; apply filter_In in Hs as [Hs _]; auto. }
    assert (Hsum : (forall s, In s (keys W) -> ~ In s (keys R) -> ~ In (s, 0%Z) sizes) <->
                   (forall s, In s (keys (rename f W)) -> ~ In s (keys (rename f R)) -> ~ In (s, 0%Z) (rename_sizes f sizes))).
    { rewrite !(rename_keys f N Hf). split; intros H s Hs Hr Hz.
      - apply in_map_iff in Hs as (t & <- & Ht). apply (H t Ht); [intros K; apply Hr, in_map, K|]. exact (proj1 (rename_sizes_In sizes t 0%Z HS (HW t Ht)) Hz).
      - apply (H (f s)); [apply in_map, Hs| |apply rename_sizes_In; auto]. intros K. apply Hr. exact (proj1 (f_in f N Hf s (keys R) (HW s Hs) HR) K). }
    assert (E1 : incl (keys (rename f R)) (keys (rename f L) ++ keys (rename f W)) <-> incl (keys R) (keys L ++ keys W)).
    { rewrite !(rename_keys f N Hf), <- map_app. apply (f_incl f N Hf); [assumption|apply incl_app; assumption]. }
    assert (E2 : incl (keys (rename f W)) (map fst (rename_sizes f sizes)) <-> incl (keys W) (map fst sizes)).
    { rewrite (rename_keys f N Hf), rename_fst. apply (f_incl f N Hf); assumption. }
    assert (E3 : incl (map fst (rename_sizes f sizes)) (keys (rename f L) ++ keys (rename f W)) <-> incl (map fst sizes) (keys L ++ keys W)).
    { rewrite !(rename_keys f N Hf), rename_fst, <- map_app. apply (f_incl f N Hf); [assumption|apply incl_app; assumption]. }
    assert (E4 : incl (keys (rename f W)) (keys (rename f L) ++ keys (rename f R)) <-> incl (keys W) (keys L ++ keys R)).
    { rewrite !(rename_keys f N Hf), <- map_app. apply (f_incl f N Hf); [assumption|apply incl_app; assumption]. }
    pose proof (rename_grouped_dots L) as E5. pose proof rename_bias_fits as E6.
    split; intros [H1 H2 H3 H4 H5 H6 H7 H8 H9 H10 H11 H12 H13]; split; rewrite ?rename_dots, ?rename_numbers, ?Wl in *; tauto.
  Qed.

  Lemma composed_same k E : incl (keys E) N -> any_composed (fst (compile k (rename f E))) = any_composed (fst (compile k E)).
  Proof.
    intros HE. unfold any_composed, compile. cbn [fst p_composition]. rewrite (comps_rename f N Hf) by (intros s Hs; apply HE, names_of_atoms, Hs).
    induction (comps k E) as [|c cs IH]; [reflexivity|]. cbn [map existsb]. rewrite IH. f_equal. rewrite (comp_axes_rename f N Hf), map_length. reflexivity.
  Qed.
  Lemma ell_par_same k E : incl (keys E) N -> p_ell_par (fst (compile k (rename f E))) = p_ell_par (fst (compile k E)).
  Proof.
    intros HE. unfold compile. cbn [fst p_ell_par].
    assert (HA : forall s, In (AName s) (atoms E) -> In s N) by (intros s Hs; apply HE, names_of_atoms, Hs). clear HE.
    generalize (@None bool) as acc. induction E as [|i E IH]; intros acc; [reflexivity|]. cbn [rename map fold_left]. fold (rename f E).
    assert (Hi : forall s, In (AName s) (item_atoms i) -> In s N) by (intros s Hs; apply HA; unfold atoms; cbn [flat_map]; apply in_or_app; left; auto).
    rewrite IH by (intros s Hs; apply HA; unfold atoms; cbn [flat_map]; apply in_or_app; right; exact Hs). f_equal.
    destruct i as [a|l]; cbn [on_atoms ell_par_step].
    - rewrite (is_ell_rename f N Hf) by (intros s ->; apply Hi; left; reflexivity). reflexivity.
    - assert (X : existsb is_ell (map (rename_atom f) l) = existsb is_ell l); [|rewrite X; reflexivity]. cbn [item_atoms] in Hi.
      clear -Hf Hi. induction l as [|a l IHl]; [reflexivity|]. cbn [map existsb]. rewrite (is_ell_rename f N Hf) by (intros s ->; apply Hi; left; reflexivity).
      rewrite IHl; [reflexivity|]. intros s Hs. apply Hi. right. exact Hs.
  Qed.
End Layers.

Section Whole.
  Context {A : Type} (add mul : A -> A -> A) (zero one : A).
  Context (add_comm : forall a b, add a b = add b a) (add_assoc : forall a b c, add a (add b c) = add (add a b) c) (mul_one : forall a, mul a one = a).
  Context (lib : pystr -> list (tensor A) -> result (tensor A)) (HC : einsum_contract add mul zero one lib).
  Context (iadd : tensor A -> tensor A -> result (tensor A)) (HI : iadd_contract add iadd).
  Context (r : runtime A) (Hok : runtime_ok r) (os os' : nat -> orders) (Hos : forall n, orders_ok (os n)) (Hos' : forall n, orders_ok (os' n)).
  Notation U := (rt_unicode r).
  Context (f : pystr -> pystr) (p p' wt wt' : pystr) (bt bt' : option pystr) (sizes : list (pystr * Z)) (L R W B : expr).
  Context (Hr : reads U p L R) (Hr' : reads U p' (rename f L) (rename f R)) (WW : written U wt W) (WW' : written U wt' (rename f W)).
  Context (HB : bias_renamed U f bt bt' B).
  Context (PL : plain L) (PR : plain R) (PW : plain W) (Hns : NoDup (map fst sizes)).
  Notation N := (keys L ++ keys R ++ keys W ++ keys B ++ map fst sizes).
  Context (Hf : renaming f N).

  Lemma iL : incl (keys L) N. Proof. intros s H. apply in_or_app. auto. Qed.
  Lemma iR : incl (keys R) N. Proof. intros s H. apply in_or_app. right. apply in_or_app. auto. Qed.
  Lemma iW : incl (keys W) N. Proof. intros s H. do 2 (apply in_or_app; right). apply in_or_app. auto. Qed.
  Lemma iB : incl (keys B) N. Proof. intros s H. do 3 (apply in_or_app; right). apply in_or_app. auto. Qed.
  Lemma iS : incl (map fst sizes) N. Proof. intros s H. do 4 (apply in_or_app; right). auto. Qed.
  Let PL' : plain (rename f L) := rename_plain f N Hf L iL PL.
  Let PR' : plain (rename f R) := rename_plain f N Hf R iR PR.
  Let PW' : plain (rename f W) := rename_plain f N Hf W iW PW.
  Lemma Hns' : NoDup (map fst (rename_sizes f sizes)).
  Proof. rewrite rename_fst. eapply renaming_NoDup; [exact Hf|apply iS|exact Hns]. Qed.

  (** both layers can be made, or none *)
  Lemma both_made :
    (forall s, In s (map fst sizes) -> ~ In s [lit "self"; lit "pattern"; lit "weight_shape"; lit "bias_shape"]) ->
    (forall s, In s (map fst (rename_sizes f sizes)) -> ~ In s [lit "self"; lit "pattern"; lit "weight_shape"; lit "bias_shape"]) ->
    ((exists M : einmix (tensor A), EinMix U os os' p wt bt sizes = Ok M) <->
     (exists M : einmix (tensor A), EinMix U os os' p' wt' bt' (rename_sizes f sizes) = Ok M)).
  Proof.
    intros F F'. pose proof (ro_unicode _ Hok) as HU.
    assert (E1 : forall L0 R0, reads U p L0 R0 -> L0 = L /\ R0 = R) by (intros L0 R0 H; eapply reads_fun; eauto).
    assert (E2 : forall L0 R0, reads U p' L0 R0 -> L0 = rename f L /\ R0 = rename f R) by (intros L0 R0 H; eapply reads_fun; eauto).
    assert (E3 : forall W0, written U wt W0 -> W0 = W) by (intros W0 H; eapply (written_fun U false false wt); eauto).
    assert (E4 : forall W0, written U wt' W0 -> W0 = rename f W) by (intros W0 H; eapply (written_fun U false false wt'); eauto).
    rewrite (einmix_accepts U HU os os' Hos Hos' p wt bt sizes Hns); [|intros L0 R0 H; apply E1 in H as [-> ->]; auto|intros W0 H; apply E3 in H as ->; auto].
    rewrite (einmix_accepts U HU os os' Hos Hos' p' wt' bt' (rename_sizes f sizes) Hns'); [|intros L0 R0 H; apply E2 in H as [-> ->]; auto|intros W0 H; apply E4 in H as ->; auto].
    pose proof (mix_ok_rename f N Hf U HU L R W B sizes bt bt' iL iR iW iB iS HB F F') as G.
    split.
    - intros (L0 & R0 & W0 & H1 & H2 & H3). apply E1 in H1 as [-> ->]. apply E3 in H2 as ->. exists (rename f L), (rename f R), (rename f W). tauto.
    - intros (L0 & R0 & W0 & H1 & H2 & H3). apply E2 in H1 as [-> ->]. apply E4 in H2 as ->. exists L, R, W. tauto.
  Qed.

  Context (M M' : einmix (tensor A)) (HM : EinMix U os os' p wt bt sizes = Ok M) (HM' : EinMix U os os' p' wt' bt' (rename_sizes f sizes) = Ok M').

  Lemma mix_parts : em_weight M' = em_weight M /\ em_bias M' = em_bias M /\ em_fan_in M' = em_fan_in M /\
    (em_pre M' = None <-> em_pre M = None) /\ (em_post M' = None <-> em_post M = None).
  Proof.
    pose proof (ro_unicode _ Hok) as HU.
    pose proof (proj1 (reads_split U HU p L R) Hr) as (l & rr & Hs & WL & WR).
    pose proof (proj1 (reads_split U HU p' _ _) Hr') as (l' & rr' & Hs' & WL' & WR').
    pose proof (einmix_made U HU os os' Hos p wt l rr bt sizes L R W Hs WL WR WW PL PR PW Hns M HM) as D.
    pose proof (einmix_made U HU os os' Hos p' wt' l' rr' bt' (rename_sizes f sizes) _ _ _ Hs' WL' WR' WW' PL' PR' PW' Hns' M' HM') as D'.
    assert (Esz : forall s, In s (map fst sizes) -> size_of (rename_sizes f sizes) (f s) = size_of sizes s).
    { intros s Hin. apply size_unique; [apply Hns'|]. apply (rename_sizes_In f N Hf sizes s); [apply iS|apply iS, Hin|]. apply size_in, Hin. }
    pose proof (md_ok _ _ _ _ _ _ _ _ _ _ _ _ _ D) as Hmo.
    assert (Efil : filter (fun s => negb (str_mem s (keys (rename f R)))) (keys (rename f W)) = map f (filter (fun s => negb (str_mem s (keys R))) (keys W))).
    { rewrite !(rename_keys f N Hf). assert (K : incl (keys W) N) by apply iW. revert K. generalize (keys W) at 1 3 4 as ws. induction ws as [|s ws IH]; intros K; [reflexivity|]. cbn [map filter].
      rewrite IH by (intros t Ht; apply K; right; exact Ht). rewrite (f_mem f N Hf); [|apply K; left; reflexivity|apply iR].
      destruct (str_mem s (keys R)); reflexivity. }
    split; [|split; [|split; [|split]]].
    - rewrite (md_weight _ _ _ _ _ _ _ _ _ _ _ _ _ D), (md_weight _ _ _ _ _ _ _ _ _ _ _ _ _ D'), (rename_keys f N Hf), map_map.
      apply map_ext_in. intros s Hin. apply Esz, (mo_sized _ _ _ _ _ _ Hmo), Hin.
    - pose proof (md_bias _ _ _ _ _ _ _ _ _ _ _ _ _ D) as Hb. pose proof (md_bias _ _ _ _ _ _ _ _ _ _ _ _ _ D') as Hb'.
      unfold bias_renamed in HB. destruct bt as [t|], bt' as [t'|]; try contradiction; [|congruence].
      destruct HB as [B1 B2]. destruct Hb as (B0 & F0 & E0). destruct Hb' as (B0' & F0' & E0').
      assert (B0 = B) by (eapply (written_fun U false false t); [exact HU|apply (bf_written _ _ _ _ _ F0)|exact B1]).
      assert (B0' = rename f B) by (eapply (written_fun U false false t'); [exact HU|apply (bf_written _ _ _ _ _ F0')|exact B2]). subst B0 B0'.
      rewrite E0, E0'. f_equal. rewrite (rename_written_names f N Hf R iR), map_map. apply map_ext_in. intros s Hin. unfold bias_dim.
      assert (Hsr : In s (keys R)) by (apply filter_In in Hin as [Hin _]; exact Hin).
      rewrite (rename_keys f N Hf), (f_mem f N Hf s (keys B) (iR s Hsr) iB). destruct (str_mem s (keys B)) eqn:Em; [|reflexivity].
      apply Esz, (bf_sized _ _ _ _ _ F0), str_mem_In, Em.
    - rewrite (md_fan _ _ _ _ _ _ _ _ _ _ _ _ _ D), (md_fan _ _ _ _ _ _ _ _ _ _ _ _ _ D'). unfold fan_of. rewrite Efil, map_map. f_equal.
      apply map_ext_in. intros s Hin. apply filter_In in Hin as [Hin _]. apply Esz, (mo_sized _ _ _ _ _ _ Hmo), Hin.
    - pose proof (md_pre _ _ _ _ _ _ _ _ _ _ _ _ _ D) as H1. pose proof (md_pre _ _ _ _ _ _ _ _ _ _ _ _ _ D') as H2.
      rewrite (composed_same f N Hf 0 L iL) in H2. destruct (any_composed (fst (compile 0 L))); [|tauto].
      destruct H1 as (P & _ & ->), H2 as (P' & _ & ->). split; discriminate.
    - pose proof (md_post _ _ _ _ _ _ _ _ _ _ _ _ _ D) as H1. pose proof (md_post _ _ _ _ _ _ _ _ _ _ _ _ _ D') as H2.
      unfold post_needed in *. rewrite (rename_nbig f), (composed_same f N Hf _ R iR), (ell_par_same f N Hf _ R iR) in H2.
      destruct (any_composed _ || _); [|tauto].
      destruct H1 as (P & _ & ->), H2 as (P' & _ & ->). split; discriminate.
  Qed.

  Context (e : nat) (len : label -> nat) (x w : tensor A).
  Notation gl := (left_groups e L).
  Notation gr := (right_groups e L R).
  Context (Wx : wf x) (Ww : wf w) (Hrank : rank_fits L (length (shp x)) e) (Hfits : fits len gl gr (shp x) sizes).
  Context (Hdiv : forall g, In g gl -> filter (unknown (map fst sizes)) g <> [] -> prodn (map len (filter (fun a => negb (unknown (map fst sizes) a)) g)) <> 0).
  Context (He : em_pre M <> None \/ em_post M <> None -> e < 8) (Sw : map Z.of_nat (shp w) = em_weight M).

  Lemma same_calls b : (match bt with None => b = None | Some _ => exists b0, b = Some b0 /\ wf b0 /\ Some (map Z.of_nat (shp b0)) = em_bias M end) ->
    exists y, call_einmix r lib iadd M w b x = Ok y /\ call_einmix r lib iadd M' w b x = Ok y.
  Proof.
    intros Hb. destruct mix_parts as (P1 & P2 & P3 & P4 & P5). pose proof (ro_unicode _ Hok) as HU.
    set (bb := option_map (fun t => (B, t)) b).
    assert (Hbb : match bt with None => bb = None | Some text => exists B b0, bb = Some (B, b0) /\ written U text B /\ wf b0 /\ Some (map Z.of_nat (shp b0)) = em_bias M end).
    { unfold bias_renamed in HB. unfold bb. destruct bt as [t|]; [|subst b; reflexivity]. destruct Hb as (b0 & -> & Hw & E).
      destruct bt' as [t'|]; [|contradiction]. exists B, b0. split; [reflexivity|]. split; [apply HB|auto]. }
    assert (Hbb' : match bt' with None => rename_bias f bb = None | Some text => exists B b0, rename_bias f bb = Some (B, b0) /\ written U text B /\ wf b0 /\ Some (map Z.of_nat (shp b0)) = em_bias M' end).
    { unfold bias_renamed in HB. unfold bb. destruct bt as [t|], bt' as [t'|]; try contradiction; [|subst b; reflexivity]. destruct Hb as (b0 & -> & Hw & E).
      exists (rename f B), b0. split; [reflexivity|]. split; [apply HB|]. split; [exact Hw|]. rewrite P2. exact E. }
    destruct (call_mixes add mul zero one add_comm add_assoc mul_one lib HC iadd HI r Hok os os' Hos Hos' p wt bt sizes L R W Hr WW PL PR PW Hns M HM e len x w Wx Ww Hrank Hfits Hdiv He Sw bb Hbb)
      as (y & Ey & Hy).
    assert (Ob : option_map snd bb = b) by (unfold bb; destruct b; reflexivity).
    assert (Ob' : option_map snd (rename_bias f bb) = b) by (unfold bb; destruct b; reflexivity).
    rewrite Ob in Ey.
    set (len' := fun a => len (back_label f N a)).
    assert (Hol : forall a, In a (concat gl) -> old N a) by (apply old_left; apply iL).
    assert (Hor : forall a, In a (concat gr) -> old N a) by (apply old_right; apply iR).
    assert (Gl := rename_left f N Hf L iL e). assert (Gr := rename_right f N Hf L R iR e).
    destruct (call_mixes add mul zero one add_comm add_assoc mul_one lib HC iadd HI r Hok os os' Hos Hos' p' wt' bt' (rename_sizes f sizes) (rename f L) (rename f R) (rename f W)
                Hr' WW' PL' PR' PW' Hns' M' HM' e len' x w) with (b := rename_bias f bb) as (y' & Ey' & Hy').
    - exact Wx.
    - exact Ww.
    - unfold rank_fits. rewrite rename_dots. unfold rename. rewrite map_length. exact Hrank.
    - rewrite Gl, Gr. destruct Hfits as (F1 & F2 & F3). split; [|split].
      + unfold len'. rewrite (rho_gshape f N Hf len gl Hol). exact F1.
      + intros k n Hin. rewrite <- !concat_map, <- map_app in Hin. apply in_map_iff in Hin as ([s|i|j m] & E & Hin); try discriminate. cbn in E. injection E as -> ->.
        apply F2, Hin.
      + intros s z Hin. unfold rename_sizes in Hin. apply in_map_iff in Hin as ([t z'] & E & Hin). injection E as <- ->. unfold len'. cbn [back_label].
        rewrite (back_f f N Hf); [apply F3, Hin|]. apply iS, in_map_iff. exists (t, z). auto.
    - rewrite Gl. intros g Hg Hne. apply in_map_iff in Hg as (g0 & <- & Hg). rewrite rename_fst in *.
      assert (Hog : forall a, In a g0 -> old N a) by (intros a Ha; apply Hol, in_concat; eauto).
      assert (Q : filter (fun a => negb (unknown (map f (map fst sizes)) a)) (map (rho_name f) g0) = map (rho_name f) (filter (fun a => negb (unknown (map fst sizes) a)) g0)).
      { clear -Hf Hog. induction g0 as [|a g IH]; [reflexivity|]. cbn [map filter]. rewrite IH by (intros b Hb; apply Hog; right; exact Hb).
        assert (E : unknown (map f (map fst sizes)) (rho_name f a) = unknown (map fst sizes) a).
        { destruct a as [s|i|j n]; try reflexivity. cbn. rewrite (f_mem f N Hf); [reflexivity| |apply iS]. apply (Hog (LName s)); [left; reflexivity|reflexivity]. }
        rewrite E. destruct (unknown (map fst sizes) a); reflexivity. }
      rewrite Q. unfold len'. rewrite (rho_map f N Hf) by (intros a Ha; apply filter_In in Ha as [Ha _]; apply Hog, Ha).
      apply Hdiv; [exact Hg|]. intros E. apply Hne. rewrite (rename_unknown f N Hf sizes iS g0 Hog), E. reflexivity.
    - intros Hx. apply He. tauto.
    - rewrite P1. exact Sw.
    - exact Hbb'.
    - rewrite Ob' in Ey'. exists y. split; [exact Ey|]. rewrite Ey'. f_equal. rewrite Gl, Gr in Hy'. unfold len' in Hy'.
      apply (mixes_rename f N Hf) in Hy'; [|intros a Ha; apply in_app_or in Ha as [Ha|Ha]; [apply Hol, Ha|apply Hor, Ha]|apply iW|apply iR|].
      + symmetry. eapply mixes_unique; [|exact Hy|exact Hy'].
        unfold right_groups. rewrite concat_groups. apply atoms_labels_NoDup; [|exact (keys_NoDup_R U p L R Hr)].
        pose proof (proj1 (reads_split U HU p L R) Hr) as (l & rr & Hs & WL & WR).
        pose proof (md_ok _ _ _ _ _ _ _ _ _ _ _ _ _ (einmix_made U HU os os' Hos p wt l rr bt sizes L R W Hs WL WR WW PL PR PW Hns M HM)) as Hmo.
        rewrite (mo_dots _ _ _ _ _ _ Hmo). unfold has_dots. destruct (existsb is_dots (atoms R)); auto.
      + intros B0 t E. unfold bb in E. destruct b; [|discriminate]. injection E as <- _. apply iB.
  Qed.
End Whole.

Lemma same_shapes {A} (r : runtime A) (Hok : runtime_ok r) os os' (Hos : forall n, orders_ok (os n)) f p p' wt wt' bt bt' sizes L R W B
  (Hr : reads (rt_unicode r) p L R) (Hr' : reads (rt_unicode r) p' (rename f L) (rename f R))
  (WW : written (rt_unicode r) wt W) (WW' : written (rt_unicode r) wt' (rename f W)) (HB : bias_renamed (rt_unicode r) f bt bt' B)
  (PL : plain L) (PR : plain R) (PW : plain W) (Hns : NoDup (map fst sizes)) (Hf : renaming f (keys L ++ keys R ++ keys W ++ keys B ++ map fst sizes))
  (M M' : einmix (tensor A)) : EinMix (rt_unicode r) os os' p wt bt sizes = Ok M -> EinMix (rt_unicode r) os os' p' wt' bt' (rename_sizes f sizes) = Ok M' ->
  em_weight M' = em_weight M /\ em_bias M' = em_bias M /\ em_fan_in M' = em_fan_in M.
Proof. intros HM HM'. pose proof (mix_parts r Hok os os' Hos f p p' wt wt' bt bt' sizes L R W B Hr Hr' WW WW' HB PL PR PW Hns Hf M M' HM HM'). tauto. Qed.
