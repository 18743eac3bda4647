(** * Facts: the warnings of EinMix and of einsum *)
From Verif Require Import Py Tensor Parsing Recipe Ops Backends Api Einsum Cache CacheFacts Warnings Layers EinMix
  ListFacts SpecGrammar SpecPattern SpecForms Compile ParseFacts ParseFacts2 ParseFacts3 FrontFacts FrontFacts2 EinsumFacts LayerWarnings LayerWarnFacts.
From Verif Require Import MixFacts MixFacts2 MixFacts3 MixFacts4.
From Verif Require Import SpecWarnings WarnFacts SpecLayerWarnings LayerWarnFacts2.

(** ** when the layers before and after are made *)
Lemma axes_length l : forall k, length (atoms_axes k l) = length (filter (fun a => match a with ANum n => negb (n =? 1)%Z | _ => true end) l).
Proof.
  induction l as [|a l IH]; intros k; [reflexivity|]. cbn [atoms_axes filter]. rewrite app_length, IH. destruct a as [s|n|]; cbn; try reflexivity. destruct (n =? 1)%Z; reflexivity.
Qed.
Lemma composed_eq k E : any_composed (fst (compile k E)) = composed E.
Proof.
  unfold any_composed, composed, compile. cbn [fst p_composition]. revert k. induction E as [|i E IH]; intros k; [reflexivity|]. cbn [comps existsb]. rewrite IH. f_equal. do 2 f_equal.
  destruct i as [a|l]; cbn [item_comp item_atoms].
  - destruct a as [s|n|]; cbn; [destruct (str_eqb s ell_name); reflexivity| |reflexivity]. destruct (n =? 1)%Z; reflexivity.
  - apply axes_length.
Qed.
Lemma dots_inside_eq k E : NoDup (keys E) -> plain E -> match p_ell_par (fst (compile k E)) with Some true => true | _ => false end = dots_inside E.
Proof.
  intros Hn Hp. unfold compile. cbn [fst p_ell_par].
  assert (G : existsb grouped_ell E = dots_inside E).
  { unfold dots_inside. unfold plain, atoms in Hp. clear Hn. induction E as [|i E IH]; [reflexivity|]. cbn [existsb flat_map] in *. rewrite IH by (intros X; apply Hp, in_or_app; auto). f_equal.
    destruct i as [a|l]; [reflexivity|]. cbn [grouped_ell item_atoms] in *. assert (Hl : ~ In (AName ell_name) l) by (intros X; apply Hp, in_or_app; auto). clear - Hl.
    induction l as [|a l IH]; [reflexivity|]. cbn [existsb]. rewrite IH by (intros X; apply Hl; right; exact X). f_equal. destruct a as [s|n|]; try reflexivity. cbn [is_ell is_dots].
    destruct (str_eqb s ell_name) eqn:Es; [|reflexivity]. apply str_eqb_eq in Es. subst. exfalso. apply Hl. left. reflexivity. }
  rewrite <- G. destruct (in_dec str_eq_dec ell_name (keys E)) as [H|H].
  - pose proof (one_ell E None Hn H) as X. destruct (existsb grouped_ell E); destruct X as [-> _]; reflexivity.
  - rewrite (ell_par_none E None H). rewrite (proj1 (no_ell_items E H)). reflexivity.
Qed.
Lemma named_atoms E s : In s (SpecLayerWarnings.named E) <-> In (AName s) (atoms E).
Proof.
  unfold SpecLayerWarnings.named. rewrite in_flat_map. split.
  - intros ([t|n|] & H & X); cbn in X; try contradiction. destruct X as [->|[]]. exact H.
  - intros H. exists (AName s). split; [exact H|left; reflexivity].
Qed.
Lemma flat_names E : SpecWarnings.written_names (flat E) = SpecWarnings.written_names E.
Proof.
  unfold SpecWarnings.written_names. rewrite atoms_flat. unfold no_ones. induction (atoms E) as [|a l IH]; [reflexivity|]. cbn [filter flat_map].
  destruct a as [s|n|]; cbn [is_one negb flat_map]; rewrite ?IH; try reflexivity. destruct (n =? 1)%Z; cbn [negb flat_map]; rewrite ?IH; reflexivity.
Qed.
Lemma flat_dots E : has_dots (flat E) = has_dots E.
Proof.
  unfold has_dots. rewrite atoms_flat. unfold no_ones. induction (atoms E) as [|a l IH]; [reflexivity|]. cbn [filter existsb]. destruct a as [s|n|]; cbn; rewrite ?IH; try reflexivity. destruct (n =? 1)%Z; cbn; rewrite ?IH; reflexivity.
Qed.
Lemma flat_composed E : has_numbers E = false -> composed (flat E) = false.
Proof.
  intros _. unfold composed, flat, no_ones. induction (atoms E) as [|a l IH]; [reflexivity|]. cbn [filter]. destruct (is_one a) eqn:E1; cbn [negb map existsb]; rewrite ?IH; [reflexivity|].
  rewrite orb_false_r. destruct a as [s|n|]; cbn in *; try reflexivity. rewrite E1. reflexivity.
Qed.

Section Mix.
  Context {T : Type} (U : unicode) (HU : unicode_ok U) (K : pystr -> bool) (m : nat).

  (** ** outcome *)
  Lemma parse_t_result p w c : told_result (einmix_parse_t U K p w c) = einmix_parse U p w /\ told_memo (einmix_parse_t U K p w c) = c.
  Proof.
    unfold einmix_parse_t, einmix_parse. destruct (str_split s_arrow p) as [|l [|r [|]]]; try (split; reflexivity).
    rewrite tres_bind, tmemo_bind, tres_tnames, tmemo_tnames, parse_w_snd. destruct (parse_expression U false false 0 l) as [[lft n1]|e]; cbn [bind]; [|auto].
    rewrite tres_bind, tmemo_bind, tres_tnames, tmemo_tnames, parse_w_snd. destruct (parse_expression U false false n1 r) as [[rg n2]|e]; cbn [bind]; [|auto].
    rewrite tres_bind, tmemo_bind, tres_tnames, tmemo_tnames, parse_w_snd. destruct (parse_expression U false false n2 w) as [[wt n3]|e]; cbn [bind]; [|auto].
    split; reflexivity.
  Qed.
  Lemma layers_t_result os os' pre post c : (forall n, orders_ok (os n)) -> (forall n, orders_ok (os' n)) -> memo_ok U c ->
    exists os1 os1', (forall n, orders_ok (os1 n)) /\ (forall n, orders_ok (os1' n)) /\
      told_result (rearrange_layers_t (T := T) U K m os os' pre post c) = rearrange_layers U os1 os1' pre post /\ memo_ok U (told_memo (rearrange_layers_t (T := T) U K m os os' pre post c)).
  Proof.
    intros Ho Ho' Hc. unfold rearrange_layers_t, rearrange_layers. rewrite tres_bind, tmemo_bind.
    assert (X : exists os1, (forall n, orders_ok (os1 n)) /\
      told_result ((match pre with Some (p, lengths) => tlet L := Rearrange_t (T := T) U K m os p lengths in tret (Ok (Some L)) | None => tret (Ok None) end) c) =
        match pre with Some (p, lengths) => let* L := Rearrange U os1 p lengths in Ok (Some L) | None => Ok None end /\
      memo_ok U (told_memo ((match pre with Some (p, lengths) => tlet L := Rearrange_t (T := T) U K m os p lengths in tret (Ok (Some L)) | None => tret (Ok None) end) c))).
    { destruct pre as [[p ls]|]; [|exists os; auto]. destruct (Rearrange_result (T := T) U K m os p ls c Ho Hc) as (os1 & O1 & R1 & M1). exists os1. split; [exact O1|].
      rewrite tres_bind, tmemo_bind, R1. destruct (Rearrange U os1 p ls); split; try reflexivity; exact M1. }
    destruct X as (os1 & O1 & R1 & M1). rewrite R1. set (c1 := told_memo _) in *.
    destruct (match pre with Some (p, lengths) => let* L := Rearrange U os1 p lengths in Ok (Some L) | None => Ok None end) as [P|e] eqn:E1; cbn [bind]; [|exists os1, os'; rewrite E1; auto].
    rewrite tres_bind, tmemo_bind.
    assert (X : exists os1', (forall n, orders_ok (os1' n)) /\
      told_result ((match post with Some p => tlet L := Rearrange_t (T := T) U K m os' p [] in tret (Ok (Some L)) | None => tret (Ok None) end) c1) =
        match post with Some p => let* L := Rearrange U os1' p [] in Ok (Some L) | None => Ok None end /\
      memo_ok U (told_memo ((match post with Some p => tlet L := Rearrange_t (T := T) U K m os' p [] in tret (Ok (Some L)) | None => tret (Ok None) end) c1))).
    { destruct post as [p|]; [|exists os'; auto]. destruct (Rearrange_result (T := T) U K m os' p [] c1 Ho' M1) as (os1' & O1' & R1' & M1'). exists os1'. split; [exact O1'|].
      rewrite tres_bind, tmemo_bind, R1'. destruct (Rearrange U os1' p []); split; try reflexivity; exact M1'. }
    destruct X as (os1' & O1' & R1' & M1'). rewrite R1'. exists os1, os1'. split; [exact O1|]. split; [exact O1'|]. rewrite E1. cbn [bind].
    destruct (match post with Some p => let* L := Rearrange U os1' p [] in Ok (Some L) | None => Ok None end); split; try reflexivity; exact M1'.
  Qed.
  Lemma bias_t_result rg n b sizes c : b <> NotAString -> told_result (bias_lengths_t U K rg n b sizes c) = bias_lengths U rg n (bias_text b) sizes.
  Proof.
    intros Hb. unfold bias_lengths_t, bias_lengths. destruct b as [|text|]; [reflexivity| |contradiction]. cbn [bias_text]. rewrite tres_bind, tres_tnames, parse_w_snd.
    destruct (parse_expression U false false n text) as [[bs n']|e]; reflexivity.
  Qed.
  Lemma mix_result os os' p w b sizes c : (forall n, orders_ok (os n)) -> (forall n, orders_ok (os' n)) -> memo_ok U c -> b <> NotAString ->
    exists os1 os1', (forall n, orders_ok (os1 n)) /\ (forall n, orders_ok (os1' n)) /\
      told_result (EinMix_t (T := T) U K m os os' p w b sizes c) = EinMix U os1 os1' p w (bias_text b) sizes.
  Proof.
    intros Ho Ho' Hc Hb. unfold EinMix_t, EinMix. rewrite tres_bind, tres_tret, tmemo_tret. destruct (check_kwargs _ sizes) as [u|e]; [|exists os, os'; auto]. cbn [bind]. unfold initialize_einmix.
    rewrite tres_bind. destruct (parse_t_result p w c) as [-> ->]. destruct (einmix_parse U p w) as [[[[[[lp rp] lft] rg] wt] nx]|e]; [|exists os, os'; auto]. cbn [bind].
    rewrite tres_bind. destruct (layers_t_result os os' (pre_reshape lp lft sizes) (post_reshape rp rg) c Ho Ho' Hc) as (os1 & os1' & O1 & O1' & R1 & _). exists os1, os1'. split; [exact O1|]. split; [exact O1'|].
    rewrite R1. destruct (rearrange_layers U os1 os1' _ _) as [[pre post]|e]; [|reflexivity]. cbn [bind]. rewrite tres_bind, tres_tret, tmemo_tret.
    destruct (einmix_check lft rg wt sizes) as [[]|e]; [|reflexivity]. cbn [bind]. rewrite tres_bind.
    assert (X : forall c0, told_result ((match p_identifiers wt with [] => tsay EmptyWeight | _ :: _ => tret (Ok tt) end) c0) = Ok tt) by (intros c0; destruct (p_identifiers wt); reflexivity).
    rewrite X. cbn [bind]. rewrite tres_bind, tres_tret. destruct (weight_lengths wt sizes) as [wl|e]; [|reflexivity]. cbn [bind]. rewrite tres_bind, tres_tret. destruct (fan_in rg wt sizes) as [fi|e]; [|reflexivity]. cbn [bind].
    rewrite tres_bind, (bias_t_result rg nx b sizes _ Hb). destruct (bias_lengths U rg nx (bias_text b) sizes) as [bl|e]; reflexivity.
  Qed.

  (** ** a bias that is no string *)
  Lemma mix_no_string os os' p w sizes c :
    (forall M, told_result (EinMix_t (T := T) U K m os os' p w NotAString sizes c) <> Ok M) /\
    told_log (EinMix_t (T := T) U K m os os' p w NotAString sizes c) = told_log (EinMix_t (T := T) U K m os os' p w NoBias sizes c) /\
    (forall M, told_result (EinMix_t (T := T) U K m os os' p w NoBias sizes c) = Ok M -> told_result (EinMix_t (T := T) U K m os os' p w NotAString sizes c) = Err EinopsError).
  Proof.
    unfold EinMix_t. rewrite ?tres_bind, ?tlog_bind, ?tres_tret, ?tlog_tret, ?tmemo_tret, ?tmemo_bind. destruct (check_kwargs _ sizes) as [u|e]; cbn [bind]; [|split; [discriminate|split; [reflexivity|discriminate]]].
    rewrite ?tres_bind, ?tlog_bind, ?tres_tret, ?tlog_tret, ?tmemo_tret, ?tmemo_bind. destruct (told_result (einmix_parse_t U K p w c)) as [[[[[[lp rp] lft] rg] wt] nx]|e]; cbn [bind]; [|split; [discriminate|split; [reflexivity|discriminate]]].
    rewrite ?tres_bind, ?tlog_bind, ?tres_tret, ?tlog_tret, ?tmemo_tret, ?tmemo_bind. set (c1 := told_memo (einmix_parse_t U K p w c)). destruct (told_result (rearrange_layers_t U K m os os' (pre_reshape lp lft sizes) (post_reshape rp rg) c1)) as [[pre post]|e]; cbn [bind]; [|split; [discriminate|split; [reflexivity|discriminate]]].
    rewrite ?tres_bind, ?tlog_bind, ?tres_tret, ?tlog_tret, ?tmemo_tret, ?tmemo_bind. destruct (einmix_check lft rg wt sizes) as [[]|e]; cbn [bind]; [|split; [discriminate|split; [reflexivity|discriminate]]].
    rewrite ?tres_bind, ?tlog_bind, ?tres_tret, ?tlog_tret, ?tmemo_tret, ?tmemo_bind. set (c2 := told_memo (rearrange_layers_t _ _ _ _ _ _ _ _)).
    assert (X : told_result ((match p_identifiers wt with [] => tsay EmptyWeight | _ :: _ => tret (Ok tt) end) c2) = Ok tt) by (destruct (p_identifiers wt); reflexivity).
    rewrite X. cbn [bind]. rewrite ?tres_bind, ?tlog_bind, ?tres_tret, ?tlog_tret, ?tmemo_tret, ?tmemo_bind. destruct (weight_lengths wt sizes) as [wl|e]; cbn [bind]; [|split; [discriminate|split; [reflexivity|discriminate]]].
    rewrite ?tres_bind, ?tlog_bind, ?tres_tret, ?tlog_tret, ?tmemo_tret, ?tmemo_bind. destruct (fan_in rg wt sizes) as [fi|e]; cbn [bind]; [|split; [discriminate|split; [reflexivity|discriminate]]].
    rewrite ?tres_bind, ?tlog_bind, ?tres_tret, ?tlog_tret, ?tmemo_tret, ?tmemo_bind. cbn [bias_lengths_t]. rewrite ?tres_bind, ?tlog_bind, ?tres_tret, ?tlog_tret, ?tmemo_tret, ?tmemo_bind. cbn [bind app]. rewrite ?tres_bind, ?tlog_bind, ?tres_tret, ?tlog_tret, ?tmemo_tret, ?tmemo_bind. split; [discriminate|]. split; [reflexivity|reflexivity].
  Qed.

  (** ** warnings *)
  Lemma parse_t_log p w l r L R W c : str_split s_arrow p = [l; r] -> written U l L -> written U r R -> written U w W ->
    told_log (einmix_parse_t U K p w c) = said K (SpecWarnings.written_names L ++ SpecWarnings.written_names R ++ SpecWarnings.written_names W).
  Proof.
    intros E HL HR HW. unfold einmix_parse_t. rewrite E. rewrite tlog_bind, (names_parsed U HU K 0 l L c HL). unfold told_result at 1, told_log at 1, told_memo at 1. cbn [fst snd].
    rewrite (surjective_pairing (compile 0 L)). rewrite tlog_bind, (names_parsed U HU K _ r R c HR). unfold told_result at 1, told_log at 1, told_memo at 1. cbn [fst snd].
    rewrite (surjective_pairing (compile _ R)). rewrite tlog_bind, (names_parsed U HU K _ w W c HW). unfold told_result at 1, told_log at 1, told_memo at 1. cbn [fst snd].
    rewrite (surjective_pairing (compile _ W)). rewrite tlog_tret, app_nil_r. unfold said. rewrite !flat_map_app, !map_app. reflexivity.
  Qed.
  Lemma mix_log os os' p w b sizes L R W Bn M : reads U p L R -> written U w W -> plain L -> plain R -> plain W ->
    match b with BiasText text => exists B, written U text B /\ Bn = SpecWarnings.written_names B | _ => Bn = [] end ->
    told_result (EinMix_t (T := T) U K m os os' p w b sizes []) = Ok M ->
    told_log (EinMix_t (T := T) U K m os os' p w b sizes []) = mix_notices K L R W Bn (map fst sizes).
  Proof.
    intros Hr WW PL PR PW HB H. apply (reads_split U HU) in Hr as (l & r & Es & WL & WR). unfold EinMix_t in *.
    apply tbind_Ok in H as (u & _ & H & -> & _). rewrite tmemo_tret, tlog_tret in *. cbn [app].
    apply tbind_Ok in H as (v & H1 & H & -> & _). rewrite (parse_t_log p w l r L R W [] Es WL WR WW). destruct (parse_t_result p w []) as [Q1 Q2]. rewrite Q1 in H1. rewrite Q2 in *.
    apply (parse_iff U HU p w l r L R W Es WL WR WW) in H1 as [Hpo ->].
    apply tbind_Ok in H as ([pre post] & H2 & H & -> & _). apply tbind_Ok in H as ([] & H3 & H & -> & _). rewrite tres_tret in H3. rewrite tlog_tret, tmemo_tret in *. cbn [app].
    apply (check_iff sizes L R W Hpo) in H3 as (Hsz & Hus & Hne).
    apply tbind_Ok in H as ([] & H4 & H & -> & _). apply tbind_Ok in H as (wl & H5 & H & -> & _). rewrite tres_tret in H5. rewrite tlog_tret, tmemo_tret in *. cbn [app].
    apply tbind_Ok in H as (fi & H6 & H & -> & _). rewrite tlog_tret, tmemo_tret in *. cbn [app]. apply tbind_Ok in H as (bl & H7 & H & -> & _). rewrite tlog_tret, app_nil_r.
    apply (weight_iff sizes L R W PW Hpo wl Hsz) in H5 as [Hnm _].
    unfold mix_notices. cbv zeta. f_equal. etransitivity; [|exact (eq_sym (app_assoc _ _ _))]. f_equal.
    - (* the layers *)
      unfold rearrange_layers_t in *. rewrite (pre_eq l sizes L R W PL Hpo), (post_eq r L R W PR Hpo) in *. unfold post_needed in *. rewrite !composed_eq in *. rewrite (dots_inside_eq _ R (written_NoDup U r R WR) PR) in *.
      apply tbind_Ok in H2 as (P1 & H8 & H2 & -> & _). apply tbind_Ok in H2 as (P2 & H9 & H2 & -> & _). rewrite tlog_tret, app_nil_r.
      assert (Hs : map fst (pre_sizes sizes L) = filter (fun s => str_mem s (SpecLayerWarnings.named L)) (map fst sizes)).
      { unfold pre_sizes. rewrite <- (map_id (filter _ (map fst sizes))). clear - Hus WL WW HU Hpo. assert (G : forall s, In s (map fst sizes) -> str_mem s (map atext (no_ones (atoms L))) = str_mem s (SpecLayerWarnings.named L)).
        { intros s Hin. apply eq_true_iff_eq. rewrite !str_mem_In, named_atoms. split.
          - intros X. destruct (text_atom U l L s HU WL (proj1 (po_numbers _ _ _ Hpo)) X) as [->|X1]; [|exact X1]. exfalso. apply (dots_not_name U HU).
            apply Hus, in_app_or in Hin as [Hin|Hin]; [exact (written_keys U _ _ l L _ WL Hin)|exact (written_keys U _ _ w W _ WW Hin)].
          - intros X. apply in_map_iff. exists (AName s). split; [reflexivity|]. apply filter_In. split; [exact X|reflexivity]. }
        clear Hus. rewrite map_id. induction sizes as [|[s z] d IH]; [reflexivity|]. cbn [filter map fst]. rewrite (G s (or_introl eq_refl)). cbn [map fst] in IH.
        destruct (str_mem s (SpecLayerWarnings.named L)); cbn [map fst]; rewrite IH by (intros t Ht; apply G; right; exact Ht); reflexivity. }
      f_equal.
      + destruct (composed L); [|reflexivity]. apply tbind_Ok in H8 as (Q & H8 & _ & -> & _). rewrite tlog_tret, app_nil_r.
        destruct (Rearrange_first U HU K m os (pre_pattern l L) (pre_sizes sizes L) L (flat L) [] Q) as [X _]; [apply (pre_reads U HU l L R W WL Hpo)|intros n []|exact H8|].
        etransitivity; [exact X|]. rewrite flat_names, Hs. reflexivity.
      + destruct (composed R || dots_inside R) eqn:Ec; [|reflexivity]. apply tbind_Ok in H9 as (Q & H9 & _ & -> & _). rewrite tlog_tret, app_nil_r.
        destruct (Rearrange_first U HU K m os' (post_pattern r R) [] (flat R) R (told_memo ((match (if composed L then Some (pre_pattern l L, pre_sizes sizes L) else None) with
           | Some (p0, lengths) => tlet L0 := Rearrange_t (T := T) U K m os p0 lengths in tret (Ok (Some L0)) | None => tret (Ok None) end) [])) Q) as [X _];
          [apply (post_reads U HU r L R W WR Hpo)| |exact H9|etransitivity; [exact X|]; rewrite flat_names; unfold recipes_of; rewrite flat_dots; reflexivity].
        intros n X. destruct (composed L) eqn:EL; [|destruct X]. apply tbind_Ok in H8 as (Q' & H8 & _ & _ & E8). rewrite E8, tmemo_tret in X.
        destruct (Rearrange_first U HU K m os (pre_pattern l L) (pre_sizes sizes L) L (flat L) [] Q') as [_ Y]; [apply (pre_reads U HU l L R W WL Hpo)|intros ? []|exact H8|].
        apply Y in X as [[]|(op & ns & n' & X)]. injection X as X _ _ _.
        assert (Z : L = flat R /\ flat L = R) by (apply (reads_fun U HU (pre_pattern l L)); [apply (pre_reads U HU l L R W WL Hpo)|rewrite <- X; apply (post_reads U HU r L R W WR Hpo)]).
        destruct Z as [Z _]. rewrite Z, flat_composed in EL; [discriminate|apply (po_numbers _ _ _ Hpo)].
    - (* the weight and the bias *)
      f_equal.
      + rewrite ids_eq. destruct W as [|i W']; [reflexivity|]. destruct (Hnm i (or_introl eq_refl)) as [s ->].
        destruct (ids (nbig (atoms L) + nbig (atoms R)) (Atom (AName s) :: W')) eqn:Ei; [|reflexivity]. exfalso.
        assert (X : In (AxName s) (ids (nbig (atoms L) + nbig (atoms R)) (Atom (AName s) :: W'))) by (apply in_ids; left; reflexivity). rewrite Ei in X. destruct X.
      + unfold bias_lengths_t. destruct b as [|text|]; subst; try reflexivity. destruct HB as (B & WB & ->). rewrite tlog_bind, (names_parsed U HU K _ text B _ WB). unfold told_result at 1, told_log at 1, told_memo at 1. cbn [fst snd].
        rewrite (surjective_pairing (compile _ B)), tlog_tret, app_nil_r. reflexivity.
  Qed.
End Mix.
