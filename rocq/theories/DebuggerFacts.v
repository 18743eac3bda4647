(** * _EinmixDebugger and the layers *)
From Verif Require Import Py Tensor ListFacts SpecSem SpecGrammar SpecEinsum SpecPattern SpecForms SpecOps Parsing Compile Recipe Ops Backends Api
  ParseFacts ParseFacts2 ParseFacts3 FrontFacts FrontFacts2 FrontFacts3 MainFacts MainFacts2 MainFacts3 EinsumFacts EinsumFacts2 EinsumFacts3 EinsumFacts4
  Layers Einsum LayerFacts EinMix SpecEinMix MixFacts MixFacts2 MixFacts3 MixFacts4 Debugger SpecDebugger.
From Coq Require Import Permutation.

(** ** what the layers are made from *)
Lemma layer_debugged {T} U os os' pattern wt bt sizes (M : einmix T) : EinMix U os os' pattern wt bt sizes = Ok M ->
  exists D, debugger U pattern wt bt sizes = Ok D /\ db_weight D = em_weight M /\ db_bias D = em_bias M /\ db_einsum D = em_einsum M /\
    match db_pre D with Some (q, lengths) => exists P, Rearrange U os q lengths = Ok P /\ em_pre M = Some P | None => em_pre M = None end /\
    match db_post D with Some q => exists P, Rearrange U os' q (db_post_lengths D) = Ok P /\ em_post M = Some P | None => em_post M = None end.
Proof.
  unfold EinMix, initialize_einmix, debugger. intros H. apply bind_Ok in H as [[] [-> H]]. cbn [bind].
  apply bind_Ok in H as [[[[[[l r] pl] pr] pw] nx] [-> H]]. cbn [bind]. apply bind_Ok in H as [[pre post] [H2 H]]. apply bind_Ok in H as [[] [-> H]]. cbn [bind].
  apply bind_Ok in H as [wl [-> H]]. cbn [bind]. apply bind_Ok in H as [fi [-> H]]. cbn [bind]. apply bind_Ok in H as [bl [-> H]]. cbn [bind].
  apply bind_Ok in H as [[] [-> H]]. cbn [bind]. apply bind_Ok in H as [t [-> H]]. cbn [bind]. injection H as <-. eexists. split; [reflexivity|].
  cbn [db_weight db_bias db_einsum db_pre db_post db_post_lengths em_weight em_bias em_einsum em_pre em_post]. do 3 (split; [reflexivity|]).
  unfold rearrange_layers in H2. apply bind_Ok in H2 as [p1 [Ha H2]]. apply bind_Ok in H2 as [p2 [Hb H2]]. injection H2 as <- <-. split.
  - destruct (pre_reshape l pl sizes) as [[q lengths]|]; [|injection Ha as <-; reflexivity]. apply bind_Ok in Ha as [P [Ha E]]. injection E as <-. eauto.
  - destruct (post_reshape r pr) as [q|]; [|injection Hb as <-; reflexivity]. apply bind_Ok in Hb as [P [Hb E]]. injection E as <-. eauto.
Qed.
Lemma debugged_layer {T} U os os' pattern wt bt sizes D : debugger U pattern wt bt sizes = Ok D ->
  ((exists M : einmix T, EinMix U os os' pattern wt bt sizes = Ok M) <->
   match db_pre D with Some (q, lengths) => exists P : layer T, Rearrange U os q lengths = Ok P | None => True end /\
   match db_post D with Some q => exists P : layer T, Rearrange U os' q (db_post_lengths D) = Ok P | None => True end).
Proof.
  intros HD. split.
  - intros [M HM]. destruct (layer_debugged U os os' pattern wt bt sizes M HM) as (D' & E & _ & _ & _ & H1 & H2). rewrite HD in E. injection E as <-. split.
    + destruct (db_pre D) as [[q lengths]|]; [|exact I]. destruct H1 as (P & H1 & _). eauto.
    + destruct (db_post D) as [q|]; [|exact I]. destruct H2 as (P & H2 & _). eauto.
  - revert HD. unfold EinMix, initialize_einmix, debugger. intros H. apply bind_Ok in H as [[] [-> H]]. cbn [bind].
    apply bind_Ok in H as [[[[[[l r] pl] pr] pw] nx] [-> H]]. cbn [bind]. apply bind_Ok in H as [[] [-> H]]. cbn [bind].
    apply bind_Ok in H as [wl [-> H]]. cbn [bind]. apply bind_Ok in H as [fi [-> H]]. cbn [bind]. apply bind_Ok in H as [bl [-> H]]. cbn [bind].
    apply bind_Ok in H as [[] [-> H]]. cbn [bind]. apply bind_Ok in H as [t [-> H]]. cbn [bind]. injection H as <-. cbn [db_pre db_post db_post_lengths]. intros [H1 H2].
    unfold rearrange_layers. destruct (pre_reshape l pl sizes) as [[q lengths]|]; [destruct H1 as [P ->]|]; (destruct (post_reshape r pr) as [q'|]; [destruct H2 as [P' ->]|]); cbn [bind]; eauto.
Qed.

(** ** which calls are accepted *)
Section Accepts.
  Context (U : unicode) (HU : unicode_ok U).
  Context (pattern wt l r : pystr) (bt : option pystr) (sizes : list (pystr * Z)) (L R W : expr).
  Context (Hsplit : str_split s_arrow pattern = [l; r]) (WL : written U l L) (WR : written U r R) (WW : written U wt W).
  Context (PL : plain L) (PR : plain R) (PW : plain W) (Hns : NoDup (map fst sizes)).
  Notation cL := (fst (compile 0 L)).
  Notation cR := (fst (compile (nbig (atoms L)) R)).
  Notation names := (mix_names 0 (nbig (atoms L)) (nbig (atoms L) + nbig (atoms R)) L R W).

  Lemma debugger_iff D : debugger U pattern wt bt sizes = Ok D <->
    debug_ok U bt sizes L R W /\
    db_pre D = (if any_composed cL then Some (pre_pattern l L, pre_sizes sizes L) else None) /\
    db_post D = (if post_needed L R then Some (post_pattern r R) else None) /\ db_post_lengths D = [] /\
    db_weight D = map (size_of sizes) (keys W) /\
    match bt with None => db_bias D = None | Some text => exists B, bias_fits U text sizes R B /\ db_bias D = Some (map (bias_dim sizes B) (written_names R)) end /\
    db_einsum D = mix_text names L R W.
  Proof.
    split.
    - intros H. unfold debugger in H. apply bind_Ok in H as [[] [H0 H]].
      apply bind_Ok in H as [v [H1 H]]. apply (parse_iff U HU pattern wt l r L R W Hsplit WL WR WW) in H1 as [Hpo ->].
      apply bind_Ok in H as [[] [H3 H]]. apply bind_Ok in H as [wl [H4 H]]. apply bind_Ok in H as [fi [H5 H]].
      apply bind_Ok in H as [bl [H6 H]]. apply bind_Ok in H as [[] [H7 H]]. apply bind_Ok in H as [text [H8 H]].
      assert (ED : D = mkDebugged (pre_reshape l cL sizes) (post_reshape r cR) [] wl bl text) by congruence. clear H. subst D.
      apply (check_iff sizes L R W Hpo) in H3 as (Hsz & Hus & Hne).
      apply (weight_iff sizes L R W PW Hpo wl Hsz) in H4 as [Hnm ->].
      rewrite (fan_eq sizes L R W PW Hpo Hnm Hsz) in H5. injection H5 as <-.
      apply raise_if_Ok, Z.eqb_neq in H7.
      apply (bias_iff U HU sizes L R W PR Hpo) in H6.
      apply text_iff in H8 as [Hle ->]; try apply (po_numbers _ _ _ Hpo); auto.
      cbn [db_pre db_post db_post_lengths db_weight db_bias db_einsum]. rewrite (pre_eq l sizes L R W PL Hpo), (post_eq r L R W PR Hpo).
      split; [|split; [reflexivity|]; split; [reflexivity|]; split; [reflexivity|]; split; [reflexivity|]; split; [exact H6|reflexivity]].
      split.
      + apply kwargs_iff. exact H0.
      + apply (po_names _ _ _ Hpo).
      + apply (po_dots _ _ _ Hpo).
      + apply (grouped_dots_none U l L WL), (po_flat _ _ _ Hpo).
      + split; apply (po_numbers _ _ _ Hpo).
      + exact Hnm.
      + exact Hsz.
      + exact Hus.
      + exact Hne.
      + intros text E. rewrite E in H6. destruct H6 as [B [HB _]]. eauto.
      + apply (fan_zero sizes R W Hns Hsz), H7.
      + rewrite <- (mix_names_length 0 (nbig (atoms L)) (nbig (atoms L) + nbig (atoms R))). exact Hle.
    - intros ([F N Dt G [B1 B2] Wt S Us Ne Bi Su Le] & E1 & E2 & E3 & E4 & E5 & E6).
      assert (Hpo : parse_ok L R W) by (destruct (named_parse W Wt) as (X1 & X2 & X3); split; auto; apply (grouped_dots_none U l L WL), G).
      unfold debugger. rewrite (proj2 (kwargs_iff _ sizes) F). cbn [bind].
      rewrite (proj2 (parse_iff U HU pattern wt l r L R W Hsplit WL WR WW _) (conj Hpo eq_refl)). cbn [bind].
      rewrite (proj2 (check_iff sizes L R W Hpo)) by auto. cbn [bind].
      rewrite (proj2 (weight_iff sizes L R W PW Hpo _ S) (conj Wt eq_refl)). cbn [bind]. rewrite (fan_eq sizes L R W PW Hpo Wt S). cbn [bind].
      rewrite (proj2 (bias_iff U HU sizes L R W PR Hpo bt (db_bias D)) E5). cbn [bind].
      rewrite (proj2 (raise_if_Ok _ _ tt)) by (apply Z.eqb_neq, (fan_zero sizes R W Hns S), Su). cbn [bind].
      assert (X : length names <= 26) by (rewrite mix_names_length; exact Le).
      rewrite (proj2 (text_iff 0 (nbig (atoms L)) (nbig (atoms L) + nbig (atoms R)) L R W _ (proj1 (po_numbers _ _ _ Hpo)) (proj1 (proj2 (po_numbers _ _ _ Hpo))) (proj2 (proj2 (po_numbers _ _ _ Hpo))) PL PR PW) (conj X eq_refl)).
      cbn [bind]. rewrite (pre_eq l sizes L R W PL Hpo), (post_eq r L R W PR Hpo). destruct D as [d1 d2 d3 d4 d5 d6]. cbn in *. congruence.
  Qed.
End Accepts.

Lemma axes_of_no_ones E : axes_of E = no_ones (atoms E).
Proof.
  unfold axes_of, no_ones. apply filter_ext. intros [s|n|]; cbn; try reflexivity. destruct (Z.eqb_spec n 1) as [->|X]; [reflexivity|].
  destruct n as [|[p|p|]|p]; try reflexivity. congruence.
Qed.
Lemma spread_flat E : spread E = flat E.
Proof. unfold spread, flat. rewrite axes_of_no_ones. reflexivity. Qed.

Lemma atoms_axes_count l : forall k, length (atoms_axes k l) = length (no_ones l).
Proof.
  induction l as [|a l IH]; intros k; [reflexivity|]. cbn [atoms_axes]. rewrite app_length, IH.
  destruct a as [s|n|]; try reflexivity. unfold no_ones. cbn [atom_axes filter is_one]. destruct (n =? 1)%Z; reflexivity.
Qed.
Lemma item_axes_count k i : length (comp_axes (item_comp k i)) = length (axes_of [i]).
Proof.
  rewrite axes_of_no_ones. unfold atoms. cbn [flat_map]. rewrite app_nil_r. destruct i as [a|g]; cbn [item_comp item_atoms]; [|apply atoms_axes_count].
  destruct (is_ell a) eqn:E; [destruct a as [s|n|]; [reflexivity|discriminate|reflexivity]|]. cbn [comp_axes]. rewrite <- (atoms_axes_count [a] k). cbn [atoms_axes]. rewrite app_nil_r. reflexivity.
Qed.
Lemma composed_iff k E : any_composed (fst (compile k E)) = false <-> one_each E.
Proof.
  unfold any_composed, compile, one_each. cbn [fst p_composition]. revert k. induction E as [|i E IH]; intros k; [split; [intros _ i []|reflexivity]|].
  cbn [comps existsb]. rewrite orb_false_iff, IH, negb_false_iff, Nat.eqb_eq, item_axes_count. split.
  - intros [H1 H2] j [<-|Hj]; auto.
  - intros H. split; [apply H; left; reflexivity|]. intros j Hj. apply H. right. exact Hj.
Qed.
Lemma open_iff E : plain E -> existsb grouped_ell E = false <-> open_dots E.
Proof.
  intros PE. unfold open_dots. rewrite <- not_true_iff_false, existsb_exists. split.
  - intros H g Hg X. apply H. exists (Group g). split; [exact Hg|]. apply existsb_exists. exists ADots. auto.
  - intros H (i & Hi & X). destruct i as [a|g]; [discriminate|]. cbn in X. apply existsb_exists in X as ([s|n|] & X & Y); [|discriminate|exact (H g Hi X)].
    cbn in Y. apply str_eqb_eq in Y. subst s. apply PE. apply in_flat_map. exists (Group g). auto.
Qed.
Lemma ell_par_iff E : plain E -> NoDup (keys E) -> (match fold_left ell_par_step E None with Some true => true | _ => false end = false <-> open_dots E).
Proof.
  intros PE NE. rewrite <- open_iff by exact PE. destruct (in_dec str_eq_dec ell_name (keys E)) as [X|X].
  - pose proof (one_ell E None NE X) as H. destruct (existsb grouped_ell E); destruct H as [-> _]; split; auto.
  - rewrite ell_par_none by exact X. destruct (no_ell_items E X) as [-> _]. tauto.
Qed.

Section Saved.
  Context (U : unicode) (HU : unicode_ok U) (pattern wt : pystr) (bt : option pystr) (sizes : list (pystr * Z)) (Hns : NoDup (map fst sizes)).
  Lemma debugger_reads D : debugger U pattern wt bt sizes = Ok D -> exists L R W, reads U pattern L R /\ written U wt W.
  Proof.
    intros H. unfold debugger in H. apply bind_Ok in H as [u [_ H]]. apply bind_Ok in H as [v [H _]]. unfold einmix_parse in H.
    destruct (str_split s_arrow pattern) as [|l [|r [|? ?]]] eqn:E; try discriminate.
    apply bind_Ok in H as [[p1 n1] [H1 H]]. apply bind_Ok in H as [[p2 n2] [H2 H]]. apply bind_Ok in H as [[p3 n3] [H3 _]].
    apply (parse_expression_iff U HU) in H1 as (L & WL & _). apply (parse_expression_iff U HU) in H2 as (R & WR & _). apply (parse_expression_iff U HU) in H3 as (W & WW & _).
    exists L, R, W. split; [|exact WW]. apply (reads_split U HU). exists l, r. auto.
  Qed.
  Lemma debugger_accepts : (forall L R, reads U pattern L R -> plain L /\ plain R) -> (forall W, written U wt W -> plain W) ->
    ((exists D, debugger U pattern wt bt sizes = Ok D) <-> exists L R W, reads U pattern L R /\ written U wt W /\ debug_ok U bt sizes L R W).
  Proof.
    intros HP HW. split.
    - intros [D H]. destruct (debugger_reads D H) as (L & R & W & Hr & WW). exists L, R, W. split; [exact Hr|]. split; [exact WW|].
      destruct (HP _ _ Hr) as [PL PR]. apply (reads_split U HU) in Hr as (l & r & Hs & WL & WR).
      apply (debugger_iff U HU pattern wt l r bt sizes L R W Hs WL WR WW PL PR (HW _ WW) Hns) in H. tauto.
    - intros (L & R & W & Hr & WW & Hok). destruct (HP _ _ Hr) as [PL PR]. apply (reads_split U HU) in Hr as (l & r & Hs & WL & WR).
      assert (X : exists bl, match bt with None => bl = None | Some text => exists B, bias_fits U text sizes R B /\ bl = Some (map (bias_dim sizes B) (written_names R)) end).
      { destruct bt as [text|]; [|eauto]. destruct (do_bias _ _ _ _ _ _ Hok text eq_refl) as [B HB]. eauto. }
      destruct X as [bl X].
      eexists (mkDebugged _ _ _ _ bl _). apply (debugger_iff U HU pattern wt l r bt sizes L R W Hs WL WR WW PL PR (HW _ WW) Hns). split; [exact Hok|].
      split; [reflexivity|]. split; [reflexivity|]. split; [reflexivity|]. split; [reflexivity|]. split; [exact X|reflexivity].
  Qed.

  Context (L R W : expr) (Hr : reads U pattern L R) (WW : written U wt W) (PL : plain L) (PR : plain R) (PW : plain W).
  Context (D : debugged) (HD : debugger U pattern wt bt sizes = Ok D).
  Lemma debugger_saves :
    match db_pre D with
    | None => one_each L
    | Some (q, lengths) => ~ one_each L /\ reads U q L (spread L) /\ forall s z, In (s, z) lengths <-> In (s, z) sizes /\ In s (written_names L)
    end /\
    match db_post D with
    | None => one_each R /\ open_dots R
    | Some q => ~ (one_each R /\ open_dots R) /\ reads U q (spread R) R
    end /\ db_post_lengths D = [].
  Proof.
    apply (reads_split U HU) in Hr as (l & r & Hs & WL & WR).
    apply (debugger_iff U HU pattern wt l r bt sizes L R W Hs WL WR WW PL PR PW Hns) in HD as (Hok & E1 & E2 & E3 & _).
    assert (Hpo : parse_ok L R W).
    { destruct Hok as [F N Dt G [B1 B2] Wt S Us Ne Bi Su Le]. destruct (named_parse W Wt) as (X1 & X2 & X3); split; auto; apply (grouped_dots_none U l L WL), G. }
    split; [|split; [|exact E3]].
    - rewrite E1. destruct (any_composed (fst (compile 0 L))) eqn:Ea; [|apply composed_iff in Ea; exact Ea]. split.
      + intros X. apply (composed_iff 0) in X. congruence.
      + split; [rewrite spread_flat; apply (pre_reads U HU l L R W WL Hpo)|]. intros s z. rewrite (pre_size_in sizes L s z). unfold written_names. rewrite filter_In.
        split; (intros [X Y]; split; [exact X|]).
        * assert (Z0 : In s (map fst (pre_sizes sizes L))) by (apply (pre_name_in sizes L); split; [apply (in_map fst) in X; exact X|exact Y]).
          destruct (used_name U HU wt l sizes L R W WL WW PL Hpo s (do_used _ _ _ _ _ _ Hok) Z0) as [N1 N2]. split; [exact N2|]. apply negb_true_iff, not_true_iff_false. intros E. apply str_eqb_eq in E. auto.
        * destruct Y as [Y Y']. apply atom_text; [exact PL|]. apply in_flat_map in Y as ([s'|n|] & Y & Z0); cbn in Z0; try tauto; destruct Z0 as [<-|[]]; [exact Y|]. rewrite str_eqb_refl in Y'. discriminate.
    - rewrite E2. unfold post_needed. destruct (any_composed (fst (compile (nbig (atoms L)) R))) eqn:Ea; cbn [orb].
      + split; [intros [X _]; apply (composed_iff (nbig (atoms L))) in X; congruence|]. rewrite spread_flat. apply (post_reads U HU r L R W WR Hpo).
      + apply composed_iff in Ea. assert (NR : NoDup (keys R)) by (eapply written_NoDup; eassumption). pose proof (ell_par_iff R PR NR) as He. unfold compile. cbn [fst p_ell_par].
        destruct (fold_left ell_par_step R None) as [[|]|]; [|split; [exact Ea|apply He; reflexivity]..].
        split; [intros [_ X]; apply He in X; discriminate|]. rewrite spread_flat. apply (post_reads U HU r L R W WR Hpo).
  Qed.
  Lemma debugger_shapes (len : pystr -> Z) : (forall s z, In (s, z) sizes -> len s = z) ->
    db_weight D = weight_dims len W /\ match bt with None => db_bias D = None | Some text => exists B, written U text B /\ db_bias D = Some (bias_dims len B R) end.
  Proof.
    intros Hlen. apply (reads_split U HU) in Hr as (l & r & Hs & WL & WR).
    apply (debugger_iff U HU pattern wt l r bt sizes L R W Hs WL WR WW PL PR PW Hns) in HD as (Hok & _ & _ & _ & E4 & E5 & _).
    assert (Hsz : forall s, In s (map fst sizes) -> size_of sizes s = len s) by (intros s Hin; symmetry; apply Hlen, size_in, Hin). split.
    - rewrite E4. apply map_ext_in. intros s Hin. apply Hsz, (do_sized _ _ _ _ _ _ Hok), Hin.
    - destruct bt as [text|]; [|exact E5]. destruct E5 as (B & HB & E). exists B. split; [apply HB|].
      rewrite E. f_equal. apply map_ext. intros s. unfold bias_dim. destruct (str_mem s (keys B)) eqn:Em; [|reflexivity]. apply Hsz, (bf_sized _ _ _ _ _ HB), str_mem_In, Em.
  Qed.
End Saved.

Section Both.
  Context {T : Type} (U : unicode) (HU : unicode_ok U) (os os' : nat -> orders) (Hos : forall n, orders_ok (os n)) (Hos' : forall n, orders_ok (os' n)).
  Context (pattern wt : pystr) (bt : option pystr) (sizes : list (pystr * Z)) (Hns : NoDup (map fst sizes)).
  Lemma debugged_groups L R W D : reads U pattern L R -> written U wt W -> plain L -> plain R -> plain W -> debugger U pattern wt bt sizes = Ok D ->
    ((exists M : einmix T, EinMix U os os' pattern wt bt sizes = Ok M) <-> forall g, In g (left_groups 0 L) -> length (filter (unknown (map fst sizes)) g) <= 1).
  Proof.
    intros Hr WW PL PR PW HD. apply (reads_split U HU) in Hr as (l & r & Hs & WL & WR).
    apply (debugger_iff U HU pattern wt l r bt sizes L R W Hs WL WR WW PL PR PW Hns) in HD as ([F N Dt G B Wt S Us Ne Bi Su Le] & _). split.
    - intros [M HM]. apply (mo_groups _ _ _ _ _ _ (md_ok _ _ _ _ _ _ _ _ _ _ _ _ _ (einmix_made U HU os os' Hos pattern wt l r bt sizes L R W Hs WL WR WW PL PR PW Hns M HM))).
    - intros Hg. eapply (einmix_exists U HU os os' Hos Hos' pattern wt l r bt sizes L R W); eauto. split; auto.
  Qed.
End Both.
