(** * EinMix: the constructor as a whole *)
From Verif Require Import Py Tensor ListFacts SpecSem SpecGrammar SpecEinsum SpecPattern SpecForms SpecOps Parsing Compile Recipe Ops Backends Api
  ParseFacts ParseFacts2 ParseFacts3 FrontFacts FrontFacts2 FrontFacts3 MainFacts MainFacts2 MainFacts3 EinsumFacts EinsumFacts2 EinsumFacts3 EinsumFacts4
  Layers Einsum LayerFacts EinMix SpecEinMix MixFacts MixFacts2 MixFacts3.
From Coq Require Import Permutation.

Lemma in_alabs_name e l s : In (LName s) (alabs e l) <-> In (AName s) l.
Proof.
  rewrite in_flat_map. split.
  - intros [[t|n|] [H X]]; cbn in X.
    + destruct X as [X|[]]. injection X as <-. exact H.
    + destruct X.
    + apply in_map_iff in X as [i [X _]]. discriminate.
  - intros H. exists (AName s). split; [exact H|left; reflexivity].
Qed.
Lemma atom_text E s : plain E -> In (AName s) (atoms E) -> In s (map atext (no_ones (atoms E))).
Proof. intros Hp H. apply in_map_iff. exists (AName s). split; [reflexivity|]. apply filter_In. split; [exact H|reflexivity]. Qed.
Lemma text_atom U s0 E s : unicode_ok U -> written U s0 E -> has_numbers E = false -> In s (map atext (no_ones (atoms E))) -> s = s_dots \/ In (AName s) (atoms E).
Proof.
  intros HU Hw Hb H. apply in_map_iff in H as [a [<- H]]. apply filter_In in H as [H Ho]. destruct a as [t|n|]; cbn.
  - right. exact H.
  - exfalso. cbn in Ho. assert (X : has_numbers E = true) by (apply existsb_exists; exists (ANum n); split; [exact H|exact Ho]). congruence.
  - left. reflexivity.
Qed.
Lemma dots_not_name U : unicode_ok U -> ~ plain_name U s_dots.
Proof.
  intros HU [H|H]; [discriminate|]. unfold isidentifier in H. cbn in H. rewrite (uo_idstart U HU) in H by reflexivity. cbn in H. discriminate.
Qed.

(** with one axis per group at most one length is unknown *)
Lemma groups_comps dots k E g : has_numbers E = false -> In g (groups dots 0 k E) -> exists c, In c (comps k E) /\ length g <= length (comp_axes c).
Proof.
  unfold has_numbers. revert k. induction E as [|i E IH]; intros k Hb H; [destruct H|].
  unfold atoms in Hb. cbn [flat_map] in Hb. rewrite existsb_app in Hb. apply orb_false_iff in Hb as [Hb1 Hb2].
  cbn [groups comps] in *. apply in_app_or in H as [H|H].
  2:{ destruct (IH _ Hb2 H) as [c [Hc Hl]]. exists c. split; [right; exact Hc|exact Hl]. }
  exists (item_comp k i). split; [left; reflexivity|].
  assert (Ha : forall k a, length (atom_labels dots 0 k a) <= length (atom_axes k a)).
  { clear. intros k a. unfold atom_labels. destruct (stands_for_dots dots a); [cbn; lia|]. destruct a as [s|n|]; cbn; try lia. destruct (n =? 1)%Z; cbn; lia. }
  assert (Hl : forall l k, length (atoms_labels dots 0 k l) <= length (atoms_axes k l)).
  { clear -Ha. induction l as [|a l IH]; intros k; [cbn; lia|]. cbn [atoms_labels atoms_axes]. rewrite !app_length. specialize (Ha k a). specialize (IH (k + nbig [a])). lia. }
  destruct i as [a|l]; cbn [item_groups item_comp] in *.
  - destruct (stands_for_dots dots a) eqn:Es.
    + apply in_map_iff in H as [x [<- Hx]]. unfold atom_labels in Hx. rewrite Es in Hx. destruct Hx.
    + destruct H as [<-|[]]. destruct (is_ell a) eqn:Ee; cbn [comp_axes]; [|apply Ha]. eapply Nat.le_trans; [apply (Ha k)|]. destruct a as [s|n|]; [cbn; lia|discriminate Ee|cbn; lia].
  - destruct H as [<-|[]]. apply Hl.
Qed.

Section Made.
  Context {T : Type} (U : unicode) (HU : unicode_ok U) (os os' : nat -> orders) (Hos : forall n, orders_ok (os n)) (Hos' : forall n, orders_ok (os' n)).
  Context (pattern wt l r : pystr) (sizes : list (pystr * Z)) (L R W : expr).
  Context (Hsplit : str_split s_arrow pattern = [l; r]) (WL : written U l L) (WR : written U r R) (WW : written U wt W).
  Notation cL := (fst (compile 0 L)).
  Notation kR := (nbig (atoms L)).
  Notation cR := (fst (compile kR R)).
  Notation kW := (kR + nbig (atoms R)).
  Notation cW := (fst (compile kW W)).
  Notation kB := (kW + nbig (atoms W)).

  Lemma parsed_as k s E : written U s E -> parse_expression U false false k s = Ok (compile k E).
  Proof. intros H. apply (parse_expression_iff U HU). exists E. split; [exact H|reflexivity]. Qed.

  Record parse_ok : Prop := {
    po_names : incl (keys R) (keys L ++ keys W);
    po_weight_dots : has_dots W = false;
    po_dots : has_dots L = has_dots R;
    po_flat : no_grouped L;
    po_numbers : has_numbers L = false /\ has_numbers R = false /\ has_numbers W = false;
    po_weight : forall i, In i W -> exists a, i = Atom a
  }.
  Lemma parse_iff v : einmix_parse U pattern wt = Ok v <-> parse_ok /\ v = (l, r, cL, cR, cW, kB).
  Proof.
    unfold einmix_parse. rewrite Hsplit, (parsed_as _ _ _ WL). rewrite (surjective_pairing (compile 0 L)), compile_next. cbn [bind fst]. rewrite Nat.add_0_l.
    rewrite (parsed_as _ _ _ WR). rewrite (surjective_pairing (compile kR R)), compile_next. cbn [bind].
    rewrite (parsed_as _ _ _ WW). rewrite (surjective_pairing (compile kW W)), compile_next. cbn [bind].
    rewrite !ids_eq. cbn [fst].
    pose proof (written_parens U wt W WW) as Hpar.
    pose proof (ell_par_check L (written_NoDup U l L WL)) as Hell.
    split.
    - intros H. apply bind_Ok in H as [[] [H1 H]]. apply bind_Ok in H as [[] [H2 H]]. apply bind_Ok in H as [[] [H3 H]]. apply bind_Ok in H as [[] [H4 H]].
      apply bind_Ok in H as [[] [H5 H]]. apply bind_Ok in H as [[] [H6 H]]. injection H as <-.
      apply report_ok in H1. rewrite raise_if_Ok in H2, H3, H4, H5, H6. unfold compile in H2, H3, H4, H5. cbn [fst p_has_ellipsis p_ell_par p_anon] in *.
      apply orb_false_iff in H5 as [H5 H5c]. apply orb_false_iff in H5 as [H5a H5b].
      assert (Hd : has_dots L = has_dots R) by (destruct (has_dots L), (has_dots R); (reflexivity || discriminate)).
      split; [|reflexivity]. split; auto.
      + apply (ids_names kR 0 kW R L W H5b). exact H1.
      + apply Hell. rewrite <- Hd, orb_diag in H4. destruct (has_dots L); [|reflexivity]. destruct (fold_left ell_par_step L None) as [[|]|]; auto.
      + apply Hpar. exact H6.
    - intros [[P1 P2 P3 P4 [P5 [P6 P7]] P8] ->].
      rewrite (proj2 (report_ok _ _)) by (apply (ids_names kR 0 kW R L W P6); exact P1). cbn [bind].
      unfold compile. cbn [fst p_has_ellipsis p_ell_par p_anon]. rewrite P2. cbn [raise_if bind]. rewrite <- P3, xorb_nilpotent. cbn [raise_if bind].
      rewrite orb_diag. assert (X : has_dots L && match fold_left ell_par_step L None with Some true => true | _ => false end = false).
      { apply Hell in P4. destruct (has_dots L); [|reflexivity]. destruct (fold_left ell_par_step L None) as [[|]|]; auto. }
      rewrite X, P5, P6, P7. cbn [orb raise_if bind]. rewrite (proj2 Hpar P8). reflexivity.
  Qed.

  Context (PL : plain L) (PR : plain R) (PW : plain W).
  Context (Hns : NoDup (map fst sizes)).
  Context (Hpo : parse_ok).
  Lemma dots_L : has_dots L = true \/ has_dots L = false.
  Proof. destruct (has_dots L); auto. Qed.
  Lemma left_labels e g a : In g (left_groups e L) -> In a g -> In a (alabs e (atoms L)).
  Proof.
    intros Hg Ha. rewrite <- (concat_alabs (has_dots L) e 0 L); [|apply (po_numbers Hpo)|exact dots_L|exact PL]. apply in_concat. exists g. auto.
  Qed.

  (** *** the rearrangement before *)
  Notation textsL := (map atext (no_ones (atoms L))).
  Definition pre_sizes : list (pystr * Z) := filter (fun '(name, _) => str_mem name textsL) sizes.
  Definition pre_pattern : pystr := l ++ lit "-> " ++ str_join (lit " ") textsL.
  Lemma pre_eq : pre_reshape l cL sizes = if any_composed cL then Some (pre_pattern, pre_sizes) else None.
  Proof. unfold pre_reshape, pre_pattern, pre_sizes. rewrite flat_texts_compile; [reflexivity|apply (po_numbers Hpo)|exact PL]. Qed.
  Lemma pre_reads : reads U pre_pattern L (flat L).
  Proof.
    exists l, (lit " " ++ str_join (lit " ") textsL). split; [reflexivity|]. split; [exact WL|]. apply (written_before U HU l); [exact WL|apply (po_numbers Hpo)].
  Qed.
  Lemma pre_size_in s z : In (s, z) pre_sizes <-> In (s, z) sizes /\ In s textsL.
  Proof. unfold pre_sizes. rewrite filter_In, str_mem_In. reflexivity. Qed.
  Lemma pre_name_in s : In s (map fst pre_sizes) <-> In s (map fst sizes) /\ In s textsL.
  Proof.
    split.
    - intros H. apply in_map_iff in H as [[s' z] [<- H]]. apply pre_size_in in H as [H1 H2]. split; [apply (in_map fst) in H1; exact H1|exact H2].
    - intros [H1 H2]. apply in_map_iff in H1 as [[s' z] [<- H1]]. apply (in_map fst _ (s', z)). apply pre_size_in. auto.
  Qed.
  Lemma pre_NoDup : NoDup (map fst pre_sizes).
  Proof.
    unfold pre_sizes. clear -Hns. induction sizes as [|[s z] d IH]; cbn; [constructor|]. inversion Hns as [|? ? H1 H2]; subst.
    destruct (str_mem s textsL); cbn; [|apply IH, H2]. constructor; [|apply IH, H2]. intros X. apply H1. apply in_map_iff in X as [y [E X]]. apply filter_In in X as [X _].
    apply in_map_iff. eauto.
  Qed.
  Lemma pre_unknown e g : In g (left_groups e L) -> filter (unknown (map fst pre_sizes)) g = filter (unknown (map fst sizes)) g.
  Proof.
    intros Hg. apply filter_ext_in. intros a Ha. pose proof (left_labels e g a Hg Ha) as Hin. destruct a as [s|i|j n]; cbn; try reflexivity.
    f_equal. apply eq_true_iff_eq. rewrite !str_mem_In, pre_name_in. apply in_alabs_name in Hin. pose proof (atom_text L s PL Hin). tauto.
  Qed.
  Lemma pre_known e g : In g (left_groups e L) -> filter (fun a => negb (unknown (map fst pre_sizes) a)) g = filter (fun a => negb (unknown (map fst sizes) a)) g.
  Proof.
    intros Hg. apply filter_ext_in. intros a Ha. pose proof (left_labels e g a Hg Ha) as Hin. destruct a as [s|i|j n]; cbn; try reflexivity.
    f_equal. f_equal. apply eq_true_iff_eq. rewrite !str_mem_In, pre_name_in. apply in_alabs_name in Hin. pose proof (atom_text L s PL Hin). tauto.
  Qed.
  Lemma pre_ident names : ident_ok Rearranging L (flat L) names.
  Proof. cbn. rewrite has_numbers_flat, keys_flat. split; [apply (po_numbers Hpo)|]. split; [apply (po_numbers Hpo)|]. split; apply incl_refl. Qed.
  Definition groups_fine : Prop := forall g, In g (left_groups 0 L) -> length (filter (unknown (map fst sizes)) g) <= 1.
  Lemma used_name s : incl (map fst sizes) (keys L ++ keys W) -> In s (map fst pre_sizes) -> s <> ell_name /\ In s (keys L).
  Proof.
    intros Hu H. apply pre_name_in in H as [H1 H2]. apply (text_atom U l) in H2; [|exact HU|exact WL|apply (po_numbers Hpo)].
    destruct H2 as [->|H2].
    - exfalso. apply Hu, in_app_or in H1. apply (dots_not_name U HU). destruct H1 as [H1|H1]; [exact (written_keys _ _ _ _ _ _ WL H1)|exact (written_keys _ _ _ _ _ _ WW H1)].
    - split; [intros ->; apply PL, H2|]. apply in_flat_map. exists (AName s). split; [exact H2|left; reflexivity].
  Qed.
  Lemma pre_preparable : incl (map fst sizes) (keys L ++ keys W) -> groups_fine ->
    forall e, preparable U pre_pattern (OpStr s_rearrange) (map fst pre_sizes) L (flat L) (if has_dots L then e else 0).
  Proof.
    intros Hu Hg. assert (H0 : preparable U pre_pattern (OpStr s_rearrange) (map fst pre_sizes) L (flat L) 0).
    { split.
      - exact pre_reads.
      - exists Rearranging. split; [reflexivity|apply pre_ident].
      - rewrite has_dots_flat. auto.
      - apply (po_flat Hpo).
      - intros s Hs. apply used_name in Hs as [H1 H2]; [|exact Hu]. split; [exact H1|apply in_or_app; left; exact H2].
      - intros g Hin. rewrite (pre_unknown 0 g Hin). apply Hg, Hin. }
    intros e. destruct (has_dots L) eqn:Ed; [|exact H0]. eapply preparable_any_rank; eauto.
  Qed.
  Definition reserved_free (names : list pystr) : Prop := forall s, In s (map fst sizes) -> ~ In s names.
  Notation mix_params := [lit "self"; lit "pattern"; lit "weight_shape"; lit "bias_shape"].
  Lemma kwargs_iff {D} names (d : list (pystr * D)) : check_kwargs names d = Ok tt <-> forall s, In s (map fst d) -> ~ In s names.
  Proof.
    unfold check_kwargs. rewrite raise_if_Ok. split.
    - intros H s Hs X. apply in_map_iff in Hs as [[k v] [<- Hs]]. apply not_true_iff_false in H. apply H. apply existsb_exists. exists (k, v). split; [exact Hs|apply str_mem_In, X].
    - intros H. apply not_true_iff_false. intros X. apply existsb_exists in X as [[k v] [Hs X]]. apply (H k); [apply (in_map fst _ _ Hs)|apply str_mem_In, X].
  Qed.
  Lemma pre_made : reserved_free mix_params -> incl (map fst sizes) (keys L ++ keys W) -> groups_fine ->
    exists P : layer T, Rearrange U os pre_pattern pre_sizes = Ok P.
  Proof.
    intros Hf Hu Hg. unfold Rearrange. rewrite (proj2 (kwargs_iff _ pre_sizes)).
    - cbn [bind]. unfold make_layer. cbn [op_of]. destruct (all_dims_made U HU pre_pattern (OpStr s_rearrange) (map fst pre_sizes) os L (flat L) Hos (pre_preparable Hu Hg)) as [recipes ->].
      eexists. reflexivity.
    - intros s Hs X. apply pre_name_in in Hs as [Hs _]. apply (Hf s Hs). destruct X as [X|[X|[]]]; [left|right; left]; exact X.
  Qed.
  Lemma pre_groups (P : layer T) : Rearrange U os pre_pattern pre_sizes = Ok P -> groups_fine.
  Proof.
    intros H. unfold Rearrange in H. apply bind_Ok in H as [u [_ H]]. unfold make_layer in H. apply bind_Ok in H as [recipes [H _]]. cbn [op_of] in H.
    apply (all_dims_ok U HU) in H as (L' & R' & Hpre & _); [|exact Hos]. specialize (Hpre 0). destruct (reads_fun U HU _ _ _ _ _ (pr_reads _ _ _ _ _ _ _ Hpre) pre_reads) as [-> ->].
    intros g Hg. rewrite <- (pre_unknown 0 g Hg). apply (pr_one _ _ _ _ _ _ _ Hpre). destruct (has_dots L); exact Hg.
  Qed.
  Lemma single_groups : any_composed cL = false -> groups_fine.
  Proof.
    intros H g Hg. destruct (groups_comps (has_dots L) 0 L g) as [c [Hc Hl]]; [apply (po_numbers Hpo)|exact Hg|].
    assert (Hone : length (comp_axes c) = 1).
    { unfold any_composed, compile in H. cbn [fst p_composition] in H. destruct (length (comp_axes c) =? 1) eqn:E; [apply Nat.eqb_eq, E|]. exfalso.
      apply not_true_iff_false in H. apply H. apply existsb_exists. exists c. split; [exact Hc|]. rewrite E. reflexivity. }
    assert (X : length (filter (unknown (map fst sizes)) g) <= length g).
    { clear. induction g as [|a g IH]; cbn; [lia|]. destruct (unknown (map fst sizes) a); cbn; lia. }
    lia.
  Qed.

  (** *** the rearrangement after *)
  Notation textsR := (map atext (no_ones (atoms R))).
  Definition post_pattern : pystr := str_join (lit " ") textsR ++ lit " ->" ++ r.
  Definition post_needed : bool := any_composed cR || match p_ell_par cR with Some true => true | _ => false end.
  Lemma post_eq : post_reshape r cR = if post_needed then Some post_pattern else None.
  Proof. unfold post_reshape, post_needed, post_pattern. rewrite flat_texts_compile; [reflexivity|apply (po_numbers Hpo)|exact PR]. Qed.
  Lemma post_reads : reads U post_pattern (flat R) R.
  Proof.
    exists (str_join (lit " ") textsR ++ lit " "), r. split; [|split; [apply (written_after U HU r); [exact WR|apply (po_numbers Hpo)]|exact WR]].
    unfold post_pattern. rewrite <- app_assoc. reflexivity.
  Qed.
  Lemma post_ident names : ident_ok Rearranging (flat R) R names.
  Proof. cbn. rewrite has_numbers_flat, keys_flat. split; [apply (po_numbers Hpo)|]. split; [apply (po_numbers Hpo)|]. split; apply incl_refl. Qed.
  Lemma flat_grouped E : existsb grouped_ell (flat E) = false.
  Proof. unfold flat. induction (no_ones (atoms E)) as [|a m IH]; [reflexivity|exact IH]. Qed.
  Lemma post_groups e : left_groups e (flat R) = map (fun a => [a]) (alabs e (atoms R)).
  Proof. unfold left_groups. rewrite has_dots_flat. apply groups_flat; [apply (po_numbers Hpo)|destruct (has_dots R); auto|exact PR]. Qed.
  Lemma post_one e names g : In g (left_groups e (flat R)) -> length (filter (unknown names) g) <= 1.
  Proof. rewrite post_groups. intros H. apply in_map_iff in H as [a [<- _]]. cbn. destruct (unknown names a); cbn; lia. Qed.
  Lemma post_made : exists P : layer T, Rearrange U os' post_pattern [] = Ok P.
  Proof.
    unfold Rearrange, make_layer. cbn [bind check_kwargs existsb raise_if map op_of].
    destruct (all_dims_made U HU post_pattern (OpStr s_rearrange) [] os' (flat R) R Hos') as [recipes ->]; [|eexists; reflexivity].
    intros e. split.
    - exact post_reads.
    - exists Rearranging. split; [reflexivity|apply post_ident].
    - rewrite has_dots_flat. auto.
    - intros _. apply flat_grouped.
    - intros s [].
    - intros g. apply post_one.
  Qed.

  (** *** the rest *)
  Lemma check_iff : einmix_check cL cR cW sizes = Ok tt <->
    incl (keys W) (map fst sizes) /\ incl (map fst sizes) (keys L ++ keys W) /\ incl (keys W) (keys L ++ keys R).
  Proof.
    unfold einmix_check. rewrite !ids_eq.
    assert (E1 : raise_if (existsb (fun a => match a with AxName s => negb (dict_has str_eqb s sizes) | AxAnon _ _ => true end) (ids kW W)) EinopsError = Ok tt <-> incl (keys W) (map fst sizes)).
    { rewrite raise_if_Ok. split.
      - intros H s Hs. apply dict_has_In. destruct (dict_has str_eqb s sizes) eqn:E; [reflexivity|]. exfalso. apply not_true_iff_false in H. apply H.
        apply existsb_exists. exists (AxName s). split; [apply in_ids; exact Hs|]. rewrite E. reflexivity.
      - intros H. apply not_true_iff_false. intros X. apply existsb_exists in X as [[s|j n] [Ha X]]; apply in_ids in Ha.
        + apply H, dict_has_In in Ha. rewrite Ha in X. discriminate.
        + eapply no_numbers_big; [|exact Ha]. apply (po_numbers Hpo). }
    assert (E2 : incl (map AxName (map fst sizes)) (set_union (ids 0 L) (ids kW W)) <-> incl (map fst sizes) (keys L ++ keys W)).
    { split.
      - intros H s Hs. apply (in_map AxName), H, in_union in Hs. apply in_or_app. destruct Hs as [Hs|Hs]; apply in_ids in Hs; auto.
      - intros H a Ha. apply in_map_iff in Ha as [s [<- Ha]]. apply in_union. apply H, in_app_or in Ha as [Ha|Ha]; [left|right]; apply in_ids; exact Ha. }
    assert (E3 : incl (ids kW W) (set_union (ids 0 L) (ids kR R)) <-> incl (keys W) (keys L ++ keys R)) by (apply ids_names; apply (po_numbers Hpo)).
    split.
    - intros H. apply bind_Ok in H as [[] [H1 H]]. apply bind_Ok in H as [[] [H2 H3]]. apply report_ok in H2, H3. tauto.
    - intros [H1 [H2 H3]]. rewrite (proj2 E1 H1). cbn [bind]. rewrite (proj2 (report_ok _ _) (proj2 E2 H2)). cbn [bind]. apply report_ok, E3, H3.
  Qed.
  Lemma only_W axs : mapM only_axis (p_composition cW) = Ok axs <-> named W /\ axs = map AxName (keys W).
  Proof. apply (only_axes kW W PW (po_weight_dots Hpo)); [apply (po_numbers Hpo)|apply (po_weight Hpo)]. Qed.
  Lemma weight_iff wl : incl (keys W) (map fst sizes) ->
    (weight_lengths cW sizes = Ok wl <-> named W /\ wl = map (size_of sizes) (keys W)).
  Proof.
    intros Hs. unfold weight_lengths.
    assert (Ev : forall ns, incl ns (map fst sizes) -> mapM (length_of sizes) (map AxName ns) = Ok (map (size_of sizes) ns)).
    { intros ns Hi. rewrite mapM_map. apply mapM_total. intros s Hin. apply length_size, Hi, Hin. }
    split.
    - intros H. assert (X : exists axs, mapM only_axis (p_composition cW) = Ok axs).
      { apply mapM_exists. intros c Hc. destruct (mapM_Ok_in _ _ _ _ H Hc) as [z [Hz _]]. apply bind_Ok in Hz as [a [Ha _]]. eauto. }
      destruct X as [axs X]. apply only_W in X as [Hn ->]. split; [exact Hn|]. unfold compile in H. cbn [fst p_composition] in H.
      rewrite (comps_named kW W PW Hn), mapM_map in H. cbn [only_axis comp_axes bind] in H. rewrite <- mapM_map, Ev in H by exact Hs. injection H as <-. reflexivity.
    - intros [Hn ->]. unfold compile. cbn [fst p_composition]. rewrite (comps_named kW W PW Hn), mapM_map. cbn [only_axis comp_axes bind]. rewrite <- mapM_map. apply Ev, Hs.
  Qed.
  Lemma fan_eq : named W -> incl (keys W) (map fst sizes) -> fan_in cR cW sizes = Ok (fan_of sizes W R).
  Proof.
    intros Hn Hs. unfold fan_in. rewrite (proj2 (only_W _) (conj Hn eq_refl)). cbn [bind]. rewrite ids_eq.
    assert (E : filter (fun a => negb (axis_mem a (ids kR R))) (map AxName (keys W)) = map AxName (filter (fun s => negb (str_mem s (keys R))) (keys W))).
    { apply filter_map_in. intros s _. rewrite in_names_ids. reflexivity. }
    rewrite E, mapM_map. rewrite (mapM_total _ (size_of sizes)); [reflexivity|]. intros s H. apply filter_In in H as [H _]. apply length_size, Hs, H.
  Qed.
  Lemma bias_iff bt bl : bias_lengths U cR kB bt sizes = Ok bl <->
    match bt with
    | None => bl = None
    | Some text => exists B, bias_fits U text sizes R B /\ bl = Some (map (bias_dim sizes B) (written_names R))
    end.
  Proof.
    unfold bias_lengths. destruct bt as [text|]; [|split; [intros H; injection H as <-; reflexivity|intros ->; reflexivity]].
    assert (HB : forall B, incl (ids kB B) (ids kR R) <-> incl (keys B) (keys R) /\ has_numbers B = false).
    { intros B. rewrite incl_ids; [tauto|]. intros j n. right. apply no_numbers_big. apply (po_numbers Hpo). }
    assert (HS : forall B, incl (ids kB B) (map AxName (map fst sizes)) -> incl (keys B) (map fst sizes)).
    { intros B H s Hs. assert (X : In (AxName s) (ids kB B)) by (apply in_ids; exact Hs). apply H, in_map_iff in X as [t [E X]]. injection E as <-. exact X. }
    assert (Hflat : flat_axes cR = atoms_axes kR (atoms R)) by apply flat_axes_compile.
    split.
    - intros H. apply bind_Ok in H as [[pb kb] [H1 H]]. apply (parse_expression_iff U HU) in H1 as [B [WB E]].
      assert (Epb : pb = fst (compile kB B)) by (rewrite <- E; reflexivity). subst pb. rewrite !ids_eq in H.
      apply bind_Ok in H as [[] [H2 H]]. apply bind_Ok in H as [[] [H3 H]]. apply bind_Ok in H as [[sh u] [H4 H]]. injection H as <-.
      apply report_ok in H2, H3. rewrite Hflat in H4. apply (bias_loop sizes kB B (HS B H3)) in H4 as [H4 E4]; [|apply (po_numbers Hpo)|exact PR].
      injection E4 as -> _. exists B. split; [|reflexivity]. split.
      + exact WB.
      + apply HB, H2.
      + apply HS, H3.
      + intros pre post Ea s Hs. exact (proj2 (H4 pre post Ea) s Hs).
    - intros (B & [WB HO HZ HA] & ->). rewrite (parsed_as kB text B WB). rewrite (surjective_pairing (compile kB B)). cbn [bind]. rewrite !ids_eq.
      rewrite (proj2 (report_ok _ _)) by (apply HB, HO). cbn [bind]. rewrite (proj2 (report_ok _ _)). 2:{
        intros [s|j n] Ha; apply in_ids in Ha; [apply in_map, HZ, Ha|exfalso; eapply no_numbers_big; [|exact Ha]; apply HO]. }
      cbn [bind]. rewrite Hflat.
      rewrite (proj2 (bias_loop sizes kB B HZ (atoms R) kR [] false _ (proj1 (proj2 (po_numbers Hpo))) PR) (conj (fun pre post E => conj eq_refl (HA pre post E)) eq_refl)).
      reflexivity.
  Qed.
  Lemma product_zero zs : forall a, fold_left Z.mul zs a = 0%Z <-> a = 0%Z \/ In 0%Z zs.
  Proof.
    induction zs as [|z zs IH]; intros a; cbn [fold_left In]; [tauto|]. rewrite IH, Z.mul_eq_0. intuition auto.
  Qed.
  Lemma fan_zero : incl (keys W) (map fst sizes) -> (fan_of sizes W R <> 0%Z <-> forall s, In s (keys W) -> ~ In s (keys R) -> ~ In (s, 0%Z) sizes).
  Proof.
    intros Hs. unfold fan_of. rewrite product_zero. split.
    - intros H s H1 H2 H3. apply H. right. apply in_map_iff. exists s. split; [apply size_unique; auto|]. apply filter_In. split; [exact H1|].
      apply negb_true_iff, not_true_iff_false. intros X. apply H2, str_mem_In, X.
    - intros H [X|X]; [discriminate|]. apply in_map_iff in X as [s [E X]]. apply filter_In in X as [X1 X2]. apply (H s X1).
      + intros Y. apply str_mem_In in Y. rewrite Y in X2. discriminate.
      + rewrite <- E. apply size_in, Hs, X1.
  Qed.
End Made.

Section Construct.
  Context {T : Type} (U : unicode) (HU : unicode_ok U) (os os' : nat -> orders) (Hos : forall n, orders_ok (os n)) (Hos' : forall n, orders_ok (os' n)).
  Context (pattern wt l r : pystr) (bt : option pystr) (sizes : list (pystr * Z)) (L R W : expr).
  Context (Hsplit : str_split s_arrow pattern = [l; r]) (WL : written U l L) (WR : written U r R) (WW : written U wt W).
  Context (PL : plain L) (PR : plain R) (PW : plain W) (Hns : NoDup (map fst sizes)).
  Notation cL := (fst (compile 0 L)).
  Notation cR := (fst (compile (nbig (atoms L)) R)).
  Notation names := (mix_names 0 (nbig (atoms L)) (nbig (atoms L) + nbig (atoms R)) L R W).

  Record made (M : einmix T) : Prop := {
    md_parse : parse_ok L R W;
    md_ok : mix_ok U bt sizes L R W;
    md_stored : em_pattern M = pattern /\ em_weight_text M = wt /\ em_bias_text M = bt /\ em_sizes M = sizes;
    md_pre : if any_composed cL then exists P, Rearrange U os (pre_pattern l L) (pre_sizes sizes L) = Ok P /\ em_pre M = Some P else em_pre M = None;
    md_post : if post_needed L R then exists P, Rearrange U os' (post_pattern r R) [] = Ok P /\ em_post M = Some P else em_post M = None;
    md_weight : em_weight M = map (size_of sizes) (keys W);
    md_bias : match bt with
              | None => em_bias M = None
              | Some text => exists B, bias_fits U text sizes R B /\ em_bias M = Some (map (bias_dim sizes B) (written_names R))
              end;
    md_fan : em_fan_in M = fan_of sizes W R;
    md_text : em_einsum M = mix_text names L R W
  }.

  Lemma named_parse : named W -> has_dots W = false /\ has_numbers W = false /\ (forall i, In i W -> exists a, i = Atom a).
  Proof.
    intros Hn. assert (Ha : forall a, In a (atoms W) -> exists s, a = AName s).
    { intros a Ha. apply in_flat_map in Ha as [i [Hi Ha]]. destruct (Hn i Hi) as [s ->]. destruct Ha as [<-|[]]. eauto. }
    split; [|split].
    - apply not_true_iff_false. intros X. apply existsb_exists in X as [a [X1 X2]]. destruct (Ha a X1) as [s ->]. discriminate.
    - apply not_true_iff_false. intros X. apply existsb_exists in X as [a [X1 X2]]. destruct (Ha a X1) as [s ->]. discriminate.
    - intros i Hi. destruct (Hn i Hi) as [s ->]. eauto.
  Qed.
  Lemma grouped_dots_none : no_grouped L <-> ~ grouped_dots L.
  Proof.
    rewrite (no_grouped_iff L (written_NoDup U l L WL)). split; [|auto]. intros H X. apply H; [|exact X].
    destruct X as [g [Hg Hd]]. apply existsb_exists. exists ADots. split; [apply in_flat_map; exists (Group g); auto|reflexivity].
  Qed.

  Lemma einmix_made M : EinMix U os os' pattern wt bt sizes = Ok M -> made M.
  Proof.
    intros H. unfold EinMix in H. apply bind_Ok in H as [[] [H0 H]]. unfold initialize_einmix in H.
    apply bind_Ok in H as [v [H1 H]]. apply (parse_iff U HU pattern wt l r L R W Hsplit WL WR WW) in H1 as [Hpo ->].
    apply bind_Ok in H as [[pre post] [H2 H]]. apply bind_Ok in H as [[] [H3 H]]. apply bind_Ok in H as [wl [H4 H]]. apply bind_Ok in H as [fi [H5 H]].
    apply bind_Ok in H as [bl [H6 H]]. apply bind_Ok in H as [[] [H7 H]]. apply bind_Ok in H as [text [H8 H]]. injection H as <-.
    apply (check_iff sizes L R W Hpo) in H3 as (Hsz & Hus & Hne).
    apply (weight_iff sizes L R W PW Hpo wl Hsz) in H4 as [Hnm ->].
    rewrite (fan_eq sizes L R W PW Hpo Hnm Hsz) in H5. injection H5 as <-.
    apply raise_if_Ok, Z.eqb_neq in H7.
    apply (bias_iff U HU sizes L R W PR Hpo) in H6.
    apply text_iff in H8 as [Hle ->]; try apply (po_numbers _ _ _ Hpo); auto.
    unfold rearrange_layers in H2. rewrite (pre_eq l sizes L R W PL Hpo), (post_eq r L R W PR Hpo) in H2.
    assert (Hgr : groups_fine sizes L /\ (if any_composed cL then exists P, Rearrange U os (pre_pattern l L) (pre_sizes sizes L) = Ok P /\ pre = Some P else pre = None) /\
                  (if post_needed L R then exists P, Rearrange U os' (post_pattern r R) [] = Ok P /\ post = Some P else post = None)).
    { apply bind_Ok in H2 as [p1 [Ha H2]]. apply bind_Ok in H2 as [p2 [Hb H2]]. injection H2 as <- <-. split; [|split].
      - destruct (any_composed cL) eqn:Ea.
        + apply bind_Ok in Ha as [P [Ha _]]. eapply (pre_groups U HU os Hos l sizes L R W WL PL Hpo). exact Ha.
        + apply (single_groups sizes L R W Hpo Ea).
      - destruct (any_composed cL); [|injection Ha as <-; reflexivity]. apply bind_Ok in Ha as [P [Ha E]]. injection E as <-. eauto.
      - destruct (post_needed L R); [|injection Hb as <-; reflexivity]. apply bind_Ok in Hb as [P [Hb E]]. injection E as <-. eauto. }
    destruct Hgr as (Hgr & Hpre & Hpost).
    split; cbn [em_pattern em_weight_text em_bias_text em_sizes em_pre em_post em_weight em_bias em_fan_in em_einsum]; auto.
    split.
    - apply kwargs_iff. exact H0.
    - apply (po_names _ _ _ Hpo).
    - apply (po_dots _ _ _ Hpo).
    - apply grouped_dots_none, (po_flat _ _ _ Hpo).
    - split; apply (po_numbers _ _ _ Hpo).
    - exact Hnm.
    - exact Hsz.
    - exact Hus.
    - exact Hne.
    - exact Hgr.
    - intros text E. rewrite E in H6. destruct H6 as [B [HB _]]. eauto.
    - apply (fan_zero sizes R W Hns Hsz), H7.
    - rewrite <- (mix_names_length 0 (nbig (atoms L)) (nbig (atoms L) + nbig (atoms R))). exact Hle.
  Qed.

  Lemma ok_parse : mix_ok U bt sizes L R W -> parse_ok L R W.
  Proof.
    intros [F N D G [B1 B2] Wt S Us Ne Gr Bi Su Le]. destruct (named_parse Wt) as (X1 & X2 & X3). split; auto. apply grouped_dots_none, G.
  Qed.
  Lemma einmix_exists : mix_ok U bt sizes L R W -> exists M : einmix T, EinMix U os os' pattern wt bt sizes = Ok M.
  Proof.
    intros Hok. pose proof (ok_parse Hok) as Hpo. destruct Hok as [F N D G [B1 B2] Wt S Us Ne Gr Bi Su Le]. unfold EinMix.
    rewrite (proj2 (kwargs_iff _ sizes) F). cbn [bind]. unfold initialize_einmix.
    rewrite (proj2 (parse_iff U HU pattern wt l r L R W Hsplit WL WR WW _) (conj Hpo eq_refl)). cbn [bind].
    unfold rearrange_layers. rewrite (pre_eq l sizes L R W PL Hpo), (post_eq r L R W PR Hpo).
    destruct (pre_made (T := T) U HU os Hos wt l sizes L R W WL WW PL Hpo F Us Gr) as [P1 E1].
    destruct (post_made (T := T) U HU os' Hos' r L R W WR PR Hpo) as [P2 E2].
    assert (X : exists pre post, (let* pre_rearrange := match (if any_composed cL then Some (pre_pattern l L, pre_sizes sizes L) else None) with
         | Some (p, lengths) => let* L0 := Rearrange U os p lengths in Ok (Some L0) | None => Ok None end in
       let* post_rearrange := match (if post_needed L R then Some (post_pattern r R) else None) with Some p => let* L0 := Rearrange U os' p [] in Ok (Some L0) | None => Ok None end in
       Ok (pre_rearrange, post_rearrange)) = Ok (pre, post) :> result (option (layer T) * option (layer T))).
    { destruct (any_composed cL); [rewrite E1|]; (destruct (post_needed L R); [rewrite E2|]); cbn [bind]; eauto. }
    destruct X as (pre & post & ->). cbn [bind].
    rewrite (proj2 (check_iff sizes L R W Hpo)) by auto. cbn [bind].
    rewrite (proj2 (weight_iff sizes L R W PW Hpo _ S) (conj Wt eq_refl)). cbn [bind]. rewrite (fan_eq sizes L R W PW Hpo Wt S). cbn [bind].
    assert (X : exists bl, bias_lengths U cR (nbig (atoms L) + nbig (atoms R) + nbig (atoms W)) bt sizes = Ok bl).
    { destruct bt as [text|]; [destruct (Bi text eq_refl) as [B HB]; eexists; apply (bias_iff U HU sizes L R W PR Hpo); exists B; split; [exact HB|reflexivity]|].
      eexists. reflexivity. }
    destruct X as [bl ->]. cbn [bind]. rewrite (proj2 (raise_if_Ok _ _ tt)) by (apply Z.eqb_neq, (fan_zero sizes R W Hns S), Su). cbn [bind].
    assert (X : length names <= 26) by (rewrite mix_names_length; exact Le).
    rewrite (proj2 (text_iff 0 (nbig (atoms L)) (nbig (atoms L) + nbig (atoms R)) L R W _ (proj1 (po_numbers _ _ _ Hpo)) (proj1 (proj2 (po_numbers _ _ _ Hpo))) (proj2 (proj2 (po_numbers _ _ _ Hpo))) PL PR PW) (conj X eq_refl)).
    cbn [bind]. eexists. reflexivity.
  Qed.
End Construct.
