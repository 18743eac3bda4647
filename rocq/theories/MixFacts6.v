(** * EinMix: the einsum inside *)
From Verif Require Import Py Tensor TensorFacts ListFacts SpecSem SpecGrammar SpecEinsum SpecPattern SpecForms SpecOps Parsing Compile Recipe Ops Backends Api
  ParseFacts ParseFacts2 ParseFacts3 StepFacts FrontFacts FrontFacts2 FrontFacts3 MainFacts MainFacts2 MainFacts3 CallFacts EinsumFacts EinsumFacts2 EinsumFacts3 EinsumFacts4
  Layers Einsum LayerFacts EinMix SpecEinMix MixFacts MixFacts2 MixFacts3 MixFacts4 MixFacts5.
From Coq Require Import Permutation.

Lemma Forall2_map_same {B C} (P : B -> C -> Prop) (f : B -> C) l : (forall b, In b l -> P b (f b)) -> Forall2 P l (map f l).
Proof. induction l as [|b l IH]; intros H; constructor; [apply H; left; reflexivity|apply IH; intros c Hc; apply H; right; exact Hc]. Qed.
Lemma in_combine_map {B C} (f : B -> C) l b : In b l -> In (b, f b) (combine l (map f l)).
Proof. induction l as [|c l IH]; intros H; [destruct H|]. destruct H as [->|H]; [left; reflexivity|right; apply IH, H]. Qed.
Lemma all_some {B C} (f : B -> option C) l : (forall b, In b l -> exists c, f b = Some c) -> exists cs, map f l = map Some cs.
Proof.
  induction l as [|b l IH]; intros H; [exists []; reflexivity|]. destruct (H b) as [c Hc]; [left; reflexivity|].
  destruct IH as [cs E]; [intros d Hd; apply H; right; exact Hd|]. exists (c :: cs). cbn. rewrite Hc, E. reflexivity.
Qed.

Lemma atoms_names ks : atoms (map (fun s => Atom (AName s)) ks) = map AName ks.
Proof. induction ks as [|s l IH]; [reflexivity|]. cbn. unfold atoms in IH. rewrite IH. reflexivity. Qed.
Lemma term_of_names ks : term_of (map AName ks) = map Some ks.
Proof. induction ks as [|s l IH]; [reflexivity|]. cbn. unfold term_of in IH. rewrite IH. reflexivity. Qed.
Lemma names_of_somes {X} (ks : list X) : term_names (map Some ks) = ks.
Proof. induction ks as [|s l IH]; [reflexivity|]. cbn. unfold term_names in IH. rewrite IH. reflexivity. Qed.
Lemma labs_of_somes {X} k (ks : list X) : term_labs k (map Some ks) = map SpecEinsum.LName ks.
Proof. induction ks as [|s l IH]; [reflexivity|]. cbn. unfold term_labs in IH. rewrite IH. reflexivity. Qed.
Lemma dots_of_somes {X} (ks : list X) : term_dots (map Some ks) = 0.
Proof. induction ks as [|s l IH]; [reflexivity|]. cbn. exact IH. Qed.

Lemma map_alabs {B} e l (f : label -> B) : map f (alabs e l) = map (fun a => f (conv e a)) (term_labs e (term_of l)).
Proof. rewrite <- conv_labs, map_map. reflexivity. Qed.

Section Einsum.
  Context {A : Type} (add mul : A -> A -> A) (zero one : A).
  Context (add_comm : forall a b, add a b = add b a) (add_assoc : forall a b c, add a (add b c) = add (add a b) c) (mul_one : forall a, mul a one = a).
  Context (lib : pystr -> list (tensor A) -> result (tensor A)) (HC : einsum_contract add mul zero one lib).
  Context (L R W : expr) (e : nat) (names : list pystr) (len : label -> nat) (x w : tensor A).
  Context (BL : has_numbers L = false) (BR : has_numbers R = false) (PL : plain L) (PR : plain R) (PW : plain W) (NW : named W).
  Context (KL : NoDup (keys L)) (KR : NoDup (keys R)) (KW : NoDup (keys W)) (DL : ndots L <= 1) (DR : ndots R <= 1).
  Context (Hd : has_dots L = has_dots R) (He : has_dots L = false -> e = 0).
  Context (Hle : length names <= 52) (Hnames : forall s, In s (written_names L ++ written_names R ++ written_names W) -> In s names).
  Context (Hout : incl (keys R) (keys L ++ keys W)) (Hneed : incl (keys W) (keys L ++ keys R)).
  Notation aL := (alabs e (atoms L)).
  Notation aR := (alabs e (atoms R)).
  Notation aW := (map LName (keys W)).
  Context (WX : wf x) (SX : shp x = map len aL) (WW : wf w) (SW : shp w = map len aW).
  Notation tL := (term_of (atoms L)).
  Notation tR := (term_of (atoms R)).
  Notation tW := (term_of (atoms W)).
  Notation ms := (filter (fun a => negb (existsb (label_eqb a) aR)) aL).
  Notation lenS := (fun l => len (conv e l)).

  Lemma BW : has_numbers W = false.
  Proof. apply (named_parse W NW). Qed.
  Lemma spare_L : spare tL x = e.
  Proof.
    unfold spare. rewrite SX, map_length, alabs_length by assumption. rewrite (ndots_has L DL). destruct (has_dots L); [lia|]. rewrite He by reflexivity. lia.
  Qed.
  Lemma atoms_W : atoms W = map AName (keys W).
  Proof. rewrite (named_keys W NW) at 1. apply atoms_names. Qed.
  Lemma term_W : tW = map Some (keys W).
  Proof. rewrite atoms_W. apply term_of_names. Qed.
  Lemma tW_names : term_names tW = keys W.
  Proof. rewrite term_W. apply names_of_somes. Qed.
  Lemma spare_W : spare tW w = 0.
  Proof. unfold spare. rewrite SW, tW_names, !map_length. lia. Qed.
  Lemma labs_W k : term_labs k tW = map SpecEinsum.LName (keys W).
  Proof. rewrite term_W. apply labs_of_somes. Qed.
  Lemma olabs_L : operand_labs tL x = term_labs e tL.
  Proof. unfold operand_labs. rewrite spare_L. reflexivity. Qed.
  Lemma olabs_W : operand_labs tW w = map SpecEinsum.LName (keys W).
  Proof. unfold operand_labs. apply labs_W. Qed.
  Lemma max_spare : list_max (map2 spare [tL; tW] [x; w]) = e.
  Proof. cbn [map2]. rewrite spare_L, spare_W. cbn. lia. Qed.
  Lemma out_eq : out_labs [tL; tW] [x; w] tR = term_labs e tR.
  Proof. unfold out_labs. rewrite max_spare. reflexivity. Qed.
  Lemma shp_L : shp x = map lenS (term_labs e tL).
  Proof. rewrite SX, <- conv_labs, map_map. reflexivity. Qed.
  Lemma shp_W : shp w = map lenS (map SpecEinsum.LName (keys W)).
  Proof. rewrite SW, !map_map. reflexivity. Qed.
  Lemma no_ell_W s : In s (keys W) -> s <> ell_name.
  Proof. intros H ->. apply PW. rewrite atoms_W. apply in_map. exact H. Qed.
  Lemma in_names_of E s : In s (written_names E) <-> In s (keys E) /\ s <> ell_name.
  Proof.
    unfold written_names. rewrite filter_In. destruct (str_eqb s ell_name) eqn:X; cbn.
    - apply str_eqb_eq in X. split; [intros [_ F]; discriminate|intros [_ F]; contradiction].
    - assert (Y : s <> ell_name) by (intros ->; rewrite str_eqb_refl in X; discriminate). tauto.
  Qed.

  Lemma good : good_call lenS [tL; tW] tR [x; w].
  Proof.
    split; [|split; [|split; [|split; [|split]]]].
    - constructor; [|constructor; [|constructor]].
      + split; [exact WX|]. split; [rewrite term_dots_of; exact DL|]. rewrite olabs_L, shp_L. apply Forall2_map_same. intros [s|k] _; cbn; auto.
      + split; [exact WW|]. split; [rewrite term_W, dots_of_somes; auto|]. rewrite olabs_W, shp_W. apply Forall2_map_same. intros [s|k] _; cbn; auto.
    - rewrite term_names_of by assumption. apply written_names_NoDup, KR.
    - cbn [flat_map]. rewrite app_nil_r, !term_names_of by (assumption || apply BW). intros s Hs. apply in_names_of in Hs as [H1 H2]. apply Hout, in_app_or in H1.
      apply in_or_app. rewrite !in_names_of. tauto.
    - rewrite term_dots_of. exact DR.
    - cbn [concat]. rewrite app_nil_r. intros H. apply None_in_term. rewrite <- Hd. apply in_app_or in H as [H|H]; [apply None_in_term, H|].
      exfalso. rewrite term_W in H. apply in_map_iff in H as [s [X _]]. discriminate.
    - rewrite max_spare. intros k Hk. exists tL, x. split; [left; reflexivity|]. rewrite olabs_L, shp_L. apply (in_combine_map lenS).
      assert (Ed : has_dots L = true) by (destruct (has_dots L); [reflexivity|rewrite He in Hk by reflexivity; lia]).
      unfold term_labs. apply in_flat_map. exists None. split; [apply None_in_term, Ed|]. apply in_map, in_rev. rewrite rev_involutive. apply in_seq. lia.
  Qed.

  Lemma in_all l : In l (all_labs [tL; tW] [x; w]) <-> In l (term_labs e tL) \/ In l (map SpecEinsum.LName (keys W)).
  Proof. unfold all_labs. cbn [map2 concat]. rewrite app_nil_r, olabs_L, olabs_W. apply in_app_iff. Qed.
  Lemma in_aL_back l : In l (term_labs e tL) <-> In (conv e l) aL /\ match l with LDot k => k < e | _ => True end.
  Proof.
    split.
    - intros H. split; [rewrite <- conv_labs; apply in_map, H|apply (labs_small e _ _ H)].
    - intros [H1 H2]. rewrite <- back_labs, <- (back_conv e l H2). apply in_map, H1.
  Qed.
  Lemma in_aR_back l : In l (term_labs e tR) <-> In (conv e l) aR /\ match l with LDot k => k < e | _ => True end.
  Proof.
    split.
    - intros H. split; [rewrite <- conv_labs; apply in_map, H|apply (labs_small e _ _ H)].
    - intros [H1 H2]. rewrite <- back_labs, <- (back_conv e l H2). apply in_map, H1.
  Qed.
  Lemma in_ms a : In a ms <-> In a aL /\ ~ In a aR.
  Proof.
    rewrite filter_In, negb_true_iff, <- not_true_iff_false, existsb_exists. split; intros [H1 H2]; (split; [exact H1|]); intros X; apply H2.
    - exists a. split; [exact X|apply label_eqb_eq; reflexivity].
    - destruct X as [b [Hb E]]. apply label_eqb_eq in E. subst. exact Hb.
  Qed.
  Lemma in_dots E i : In (LDots i) (alabs e (atoms E)) <-> has_dots E = true /\ i < e.
  Proof.
    rewrite in_flat_map. unfold has_dots. rewrite existsb_exists. split.
    - intros [[s|n|] [H X]]; cbn in X; [destruct X as [X|[]]; discriminate|destruct X|]. apply in_map_iff in X as [j [X Hj]]. injection X as <-. apply in_seq in Hj. split; [exists ADots; auto|lia].
    - intros [[a [Ha X]] Hi]. destruct a; try discriminate. exists ADots. split; [exact Ha|]. apply in_map, in_seq. lia.
  Qed.
  Lemma no_num E j n : ~ In (LNum j n) (alabs e (atoms E)).
  Proof. rewrite in_flat_map. intros [[s|m|] [H X]]; cbn in X; [destruct X as [X|[]]; discriminate|destruct X|]. apply in_map_iff in X as [i [X _]]. discriminate. Qed.
  Lemma in_ms_name a : In a ms -> exists s, a = LName s.
  Proof.
    intros H. apply in_ms in H as [H1 H2]. destruct a as [s|i|j n]; [eauto| |].
    - exfalso. apply H2. apply in_dots in H1 as [H1 Hi]. apply in_dots. rewrite <- Hd. auto.
    - exfalso. exact (no_num L j n H1).
  Qed.
  Lemma in_name E s : plain E -> (In (LName s) (alabs e (atoms E)) <-> In s (keys E) /\ s <> ell_name).
  Proof. intros P. rewrite in_alabs_name, (name_key E s P). apply in_names_of. Qed.
  Lemma aL_NoDup : NoDup aL.
  Proof.
    rewrite <- (atoms_labels_alabs (has_dots L) e (atoms L) 0); [|exact BL|destruct (has_dots L) eqn:E; [left|right; exact E]; reflexivity|exact PL].
    apply atoms_labels_NoDup; [destruct (has_dots L) eqn:E; [left; reflexivity|right; exact E]|exact KL].
  Qed.
  Lemma W_split s : In s (keys W) -> In (LName s) aR \/ In (LName s) ms.
  Proof.
    intros H. pose proof (no_ell_W s H) as Hs. destruct (in_dec str_eq_dec s (keys R)) as [X|X]; [left; apply in_name; auto|right].
    apply in_ms. split; [|intros Y; apply in_name in Y; [tauto|exact PR]]. apply in_name; [exact PL|]. split; [|exact Hs]. apply Hneed, in_app_or in H. tauto.
  Qed.
  Lemma L_split a : In a aL -> In a aR \/ In a ms.
  Proof. intros H. destruct (in_dec label_eq_dec a aR) as [X|X]; [left; exact X|right; apply in_ms; auto]. Qed.
  Lemma back_ms_inj a : In a ms -> conv e (back e a) = a.
  Proof. intros H. destruct (in_ms_name a H) as [s ->]. reflexivity. Qed.
  Lemma summed_ms : summed [tL; tW] tR [x; w] (map (back e) ms).
  Proof.
    split.
    - apply NoDup_map_inj; [|apply NoDup_filter, aL_NoDup]. intros a b Ha Hb E. rewrite <- (back_ms_inj a Ha), <- (back_ms_inj b Hb), E. reflexivity.
    - intros l. rewrite in_all, out_eq. split.
      + intros H. apply in_map_iff in H as [a [<- H]]. pose proof (in_ms_name a H) as [s ->]. apply in_ms in H as [H1 H2]. cbn [back]. split.
        * left. apply in_aL_back. split; [exact H1|exact I].
        * intros X. apply in_aR_back in X as [X _]. contradiction.
      + intros [H1 H2]. assert (G : exists s, l = SpecEinsum.LName s /\ In (LName s) ms).
        { destruct H1 as [H1|H1].
          - pose proof (labs_small e _ _ H1) as Hs. apply in_aL_back in H1 as [H1 _]. assert (X : In (conv e l) ms) by (apply in_ms; split; [exact H1|intros Y; apply H2, in_aR_back; auto]).
            destruct (in_ms_name _ X) as [s E]. destruct l as [t|k]; [|discriminate]. exists t. split; [reflexivity|exact X].
          - apply in_map_iff in H1 as [s [<- H1]]. exists s. split; [reflexivity|]. destruct (W_split s H1) as [X|X]; [|exact X]. exfalso. apply H2, in_aR_back. split; [exact X|exact I]. }
        destruct G as [s [-> G]]. apply in_map_iff. exists (LName s). auto.
  Qed.

  Lemma einsum_called : exists y, lib (mix_text names L R W) [x; w] = Ok y /\
    is_einsum str_eqb add mul zero one lenS [tL; tW] tR [x; w] (map (back e) ms) y.
  Proof.
    set (Ts := [tL; tW]).
    assert (Hin : forall s, In s (flat_map term_names Ts) -> In s names).
    { intros s Hs. apply Hnames. unfold Ts in Hs. cbn [flat_map] in Hs. rewrite app_nil_r, !term_names_of in Hs by (assumption || apply BW).
      apply in_app_or in Hs as [Hs|Hs]; apply in_or_app; [left; exact Hs|right; apply in_or_app; right; exact Hs]. }
    assert (Hinv : forall a, In a (flat_map term_names Ts) -> name_of names (letter_of names a) = a) by (intros a Ha; apply name_letter; auto).
    assert (Hg' := good_rename (letter_of names) (name_of names) Ts tR [x; w] lenS good Hinv).
    assert (H2 : incl (flat_map term_names (map (map_term (letter_of names)) Ts)) letters).
    { intros c H. apply in_flat_map in H as (t & Ht & Hc'). apply in_map_iff in Ht as (t0 & <- & Ht0).
      rewrite map_term_names in Hc'. apply in_map_iff in Hc' as (s & <- & Hs). apply letter_of_in; [exact Hle|]. apply Hin, in_flat_map. eauto. }
    assert (H1 : map (map_term (letter_of names)) Ts <> []) by discriminate.
    destruct (HC _ _ _ _ H1 H2 Hg') as (y & ms' & E & Hs' & Hy).
    exists y. split; [exact E|].
    eapply (is_einsum_rename str_eqb N.eqb str_eqb_eq' N.eqb_eq add mul zero one add_comm add_assoc (letter_of names) (name_of names)); eauto using good, summed_ms.
  Qed.

  (** the indices einsum uses *)
  Section At.
    Context (ix : label -> nat) (Hix : within len ix aR) (v : list nat) (Hv : inb (map len ms) v = true).
    Notation J := (assign label_eqb ix ms v).
    Notation J' := (assign (lab_eqb str_eqb) (fun l => ix (conv e l)) (map (back e) ms) v).
    Lemma J_within a : In a aR \/ In a ms -> J a < len a.
    Proof.
      intros H. destruct (in_dec label_eq_dec a ms) as [X|X].
      - apply (within_assign label_eqb label_eqb_eq len ix ms v); auto. apply NoDup_filter, aL_NoDup.
      - rewrite (assign_out label_eqb label_eqb_eq) by exact X. apply Hix. tauto.
    Qed.
    Lemma J_conv l : match l with LDot k => k < e | _ => True end -> J' l = J (conv e l).
    Proof.
      intros Hl. unfold assign. rewrite <- (back_conv e l Hl) at 1.
      rewrite (index_of_map label_eqb (lab_eqb str_eqb) (back e) (conv e l) ms).
      - reflexivity.
      - intros a Ha. destruct (in_ms_name a Ha) as [s ->]. rewrite back_conv by exact Hl. cbn [back]. apply eq_true_iff_eq.
        rewrite (lab_eqb_eq str_eqb str_eqb_eq), label_eqb_eq. destruct l as [t|k]; cbn; split; intros X; inversion X; reflexivity.
    Qed.
    Lemma element_L : get x (map J aL) = Some (element_at zero J' tL x).
    Proof.
      unfold element_at. rewrite olabs_L.
      assert (E : map2 (fun l d => if d =? 1 then 0 else J' l) (term_labs e tL) (shp x) = map J aL).
      { rewrite shp_L, map_alabs. rewrite <- (map_id (term_labs e tL)) at 1. rewrite map2_map, map2_same. apply map_ext_in. intros l Hl.
        pose proof (labs_small e _ _ Hl) as Hs. rewrite J_conv by exact Hs. assert (X : J (conv e l) < len (conv e l)) by (apply J_within, L_split, in_aL_back, Hl).
        destruct (len (conv e l) =? 1) eqn:El; [|reflexivity]. apply Nat.eqb_eq in El. lia. }
      rewrite E. destruct (get_wf x (map J aL) WX) as [a Ha]; [|rewrite Ha; reflexivity].
      rewrite SX. apply inb_within. intros a Ha. apply J_within, L_split, Ha.
    Qed.
    Lemma element_W : get w (map J aW) = Some (element_at zero J' tW w).
    Proof.
      unfold element_at. rewrite olabs_W.
      assert (E : map2 (fun l d => if d =? 1 then 0 else J' l) (map SpecEinsum.LName (keys W)) (shp w) = map J aW).
      { rewrite shp_W. rewrite <- (map_id (map SpecEinsum.LName (keys W))) at 1. rewrite map2_map, map2_same, !map_map. apply map_ext_in. intros s Hs.
        rewrite J_conv by exact I. cbn [conv]. assert (X : J (LName s) < len (LName s)) by (apply J_within, W_split, Hs).
        destruct (len (LName s) =? 1) eqn:El; [|reflexivity]. apply Nat.eqb_eq in El. lia. }
      rewrite E. destruct (get_wf w (map J aW) WW) as [a Ha]; [|rewrite Ha; reflexivity].
      rewrite SW. apply inb_within. intros a Ha. apply in_map_iff in Ha as [s [<- Ha]]. apply J_within, W_split, Ha.
    Qed.
  End At.

  Lemma mix_einsum : exists y, lib (mix_text names L R W) [x; w] = Ok y /\ wf y /\ shp y = map len aR /\
    forall ix, within len ix aR -> exists xs ws,
      map (fun v => get x (map (assign label_eqb ix ms v) aL)) (indices (map len ms)) = map Some xs /\
      map (fun v => get w (map (assign label_eqb ix ms v) aW)) (indices (map len ms)) = map Some ws /\
      get y (map ix aR) = Some (fold_right add zero (map2 mul xs ws)).
  Proof.
    destruct einsum_called as (y & E & Hw & Hs & Hy). exists y. split; [exact E|]. split; [exact Hw|]. rewrite out_eq in Hs, Hy. split.
    { rewrite Hs, <- conv_labs, map_map. reflexivity. }
    intros ix Hix.
    set (J' := fun v => assign (lab_eqb str_eqb) (fun l => ix (conv e l)) (map (back e) ms) v).
    exists (map (fun v => element_at zero (J' v) tL x) (indices (map len ms))), (map (fun v => element_at zero (J' v) tW w) (indices (map len ms))).
    split; [|split].
    - rewrite map_map. apply map_ext_in. intros v Hv. apply element_L; [exact Hix|]. apply indices_In, Hv.
    - rewrite map_map. apply map_ext_in. intros v Hv. apply element_W; [exact Hix|]. apply indices_In, Hv.
    - specialize (Hy (fun l => ix (conv e l))). rewrite map_alabs, Hy.
      + f_equal. f_equal. rewrite map2_map, map2_same. rewrite !map_map.
        assert (Em : map (fun a => len (conv e (back e a))) ms = map len ms) by (apply map_ext_in; intros a Ha; rewrite back_ms_inj by exact Ha; reflexivity).
        rewrite Em. apply map_ext. intros v. unfold product_at. cbn [map2 fold_right]. rewrite mul_one. reflexivity.
      + intros l Hl. apply Hix, in_aR_back, Hl.
  Qed.
End Einsum.
