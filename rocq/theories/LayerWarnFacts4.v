(** * Facts: the weight without axes, no false alarms, and einsum *)
From Verif Require Import Py Tensor Parsing Recipe Ops Backends Api Einsum Cache CacheFacts Warnings Layers EinMix
  ListFacts SpecGrammar SpecPattern SpecForms SpecEinsum Compile ParseFacts ParseFacts2 ParseFacts3 FrontFacts FrontFacts2 EinsumFacts EinsumFacts2 LayerWarnings LayerWarnFacts.
From Verif Require RecipeFacts.
From Verif Require Import MixFacts MixFacts2 MixFacts3 MixFacts4.
From Verif Require Import SpecWarnings WarnFacts SpecLayerWarnings LayerWarnFacts2 LayerWarnFacts3.

Section Fair.
  Context {T : Type} (U : unicode) (K : pystr -> bool) (m : nat).
  Definition fair {A} (a : told A) : Prop := forall c n, In n (told_log (a c)) -> exists w, n = AboutName w /\ justified U K w.
  Lemma fair_tret {A} (r : result A) : fair (tret r). Proof. intros c n []. Qed.
  Lemma fair_bind {A B} (a : told A) (f : A -> told B) : fair a -> (forall x, fair (f x)) -> fair (tbind a f).
  Proof. intros Ha Hf c n H. rewrite tlog_bind in H. apply in_app_or in H as [H|H]; [exact (Ha c n H)|]. destruct (told_result (a c)) as [x|]; [exact (Hf x _ n H)|destruct H]. Qed.
  Lemma fair_parse au ad k s : fair (tnames (parse_expression_w U K au ad k s)).
  Proof. intros c n H. unfold tnames, told_log in H. cbn in H. apply in_map_iff in H as (w & <- & H). exists w. split; [reflexivity|]. exact (parse_justified U K _ _ _ _ _ H). Qed.
  Lemma fair_recipe o k : fair (recipe_t U K m o k).
  Proof.
    intros c n H. pose proof (step U K m o k c) as S. destruct (take_key rkey_eqb k c) as [[e rest]|]; [rewrite S in H; destruct H|]. destruct k as [[[p op] ns] nd]. rewrite S in H. unfold told_log in H. cbn [fst] in H.
    apply in_map_iff in H as (w & <- & H). exists w. split; [reflexivity|]. exact (prepare_justified U K _ _ _ _ _ _ H).
  Qed.
  Lemma fair_mapM {A B} (f : A -> told B) l : (forall x, fair (f x)) -> fair (tmapM f l).
  Proof. intros Hf. induction l as [|x l IH]; [apply fair_tret|]. cbn [tmapM]. apply fair_bind; [apply Hf|]. intros y. apply fair_bind; [exact IH|]. intros ys. apply fair_tret. Qed.
  Lemma fair_all_dims os p op ns : fair (all_dims_t U K m os p op ns).
  Proof.
    unfold all_dims_t. destruct (str_split s_arrow p) as [|l [|r [|]]]; try apply fair_tret. apply fair_bind; [apply fair_parse|]. intros [lft nx]. apply fair_mapM. intros n. apply fair_bind; [apply fair_recipe|]. intros rec. apply fair_tret.
  Qed.
  Lemma fair_Rearrange os p sizes : fair (Rearrange_t (T := T) U K m os p sizes).
  Proof. unfold Rearrange_t. apply fair_bind; [apply fair_tret|]. intros _. apply fair_bind; [apply fair_all_dims|]. intros rs. apply fair_tret. Qed.
  Lemma fair_Reduce os id p red sizes : fair (Reduce_t (T := T) U K m os id p red sizes).
  Proof. unfold Reduce_t. apply fair_bind; [apply fair_tret|]. intros _. apply fair_bind; [apply fair_all_dims|]. intros rs. apply fair_tret. Qed.
  Lemma fair_mix_parse p w : fair (einmix_parse_t U K p w).
  Proof.
    unfold einmix_parse_t. destruct (str_split s_arrow p) as [|l [|r [|]]]; try apply fair_tret. apply fair_bind; [apply fair_parse|]. intros [lft n1]. apply fair_bind; [apply fair_parse|]. intros [rg n2]. apply fair_bind; [apply fair_parse|]. intros [wt n3]. apply fair_tret.
  Qed.
  Lemma fair_layers os os' pre post : fair (rearrange_layers_t (T := T) U K m os os' pre post).
  Proof.
    unfold rearrange_layers_t. apply fair_bind; [destruct pre as [[p ls]|]; [apply fair_bind; [apply fair_Rearrange|intros ?; apply fair_tret]|apply fair_tret]|]. intros P.
    apply fair_bind; [destruct post as [p|]; [apply fair_bind; [apply fair_Rearrange|intros ?; apply fair_tret]|apply fair_tret]|]. intros Q. apply fair_tret.
  Qed.
  Lemma fair_bias rg n b sizes : fair (bias_lengths_t U K rg n b sizes).
  Proof. unfold bias_lengths_t. destruct b; try apply fair_tret. apply fair_bind; [apply fair_parse|]. intros [bs n']. apply fair_tret. Qed.

  (** *** EinMix: nothing else but the warning about a weight without axes *)
  Lemma mix_fair os os' p w b sizes c n : In n (told_log (EinMix_t (T := T) U K m os os' p w b sizes c)) ->
    n = EmptyWeight \/ exists x, n = AboutName x /\ justified U K x.
  Proof.
    intros H. unfold EinMix_t in H. rewrite tlog_bind, tlog_tret, tres_tret, tmemo_tret in H. cbn [app] in H. destruct (check_kwargs _ sizes) as [u|e]; [|destruct H].
    rewrite tlog_bind in H. apply in_app_or in H as [H|H]; [right; exact (fair_mix_parse _ _ _ _ H)|]. destruct (told_result (einmix_parse_t U K p w c)) as [[[[[[lp rp] lft] rg] wt] nx]|e]; [|destruct H].
    rewrite tlog_bind in H. apply in_app_or in H as [H|H]; [right; exact (fair_layers _ _ _ _ _ _ H)|]. destruct (told_result (rearrange_layers_t U K m os os' _ _ _)) as [[pre post]|e]; [|destruct H].
    rewrite tlog_bind, tlog_tret, tres_tret, tmemo_tret in H. cbn [app] in H. destruct (einmix_check lft rg wt sizes) as [[]|e]; [|destruct H].
    rewrite tlog_bind in H. apply in_app_or in H as [H|H]; [left; destruct (p_identifiers wt); [destruct H as [<-|[]]; reflexivity|destruct H]|].
    destruct (told_result ((match p_identifiers wt with [] => tsay EmptyWeight | _ :: _ => tret (Ok tt) end) _)) as [[]|e]; [|destruct H].
    rewrite tlog_bind, tlog_tret, tres_tret, tmemo_tret in H. cbn [app] in H. destruct (weight_lengths wt sizes) as [wl|e]; [|destruct H].
    rewrite tlog_bind, tlog_tret, tres_tret, tmemo_tret in H. cbn [app] in H. destruct (fan_in rg wt sizes) as [fi|e]; [|destruct H].
    rewrite tlog_bind in H. apply in_app_or in H as [H|H]; [right; exact (fair_bias _ _ _ _ _ _ H)|]. destruct (told_result (bias_lengths_t U K rg nx b sizes _)); [rewrite tlog_tret in H|]; destruct H.
  Qed.

  (** *** a weight without axes, whatever the cache holds *)
  Lemma mix_empty os os' p w b sizes c M : unicode_ok U -> told_result (EinMix_t (T := T) U K m os os' p w b sizes c) = Ok M ->
    (In EmptyWeight (told_log (EinMix_t (T := T) U K m os os' p w b sizes c)) <-> em_weight M = []).
  Proof.
    intros HU H. unfold EinMix_t in *.
    apply tbind_Ok in H as (u & _ & H & -> & _). rewrite tmemo_tret, tlog_tret in *. cbn [app].
    apply tbind_Ok in H as ([[[[[lp rp] lft] rg] wt] nx] & H1 & H & -> & _).
    apply tbind_Ok in H as ([pre post] & H2 & H & -> & _). apply tbind_Ok in H as ([] & H3 & H & -> & _). rewrite tlog_tret, tmemo_tret in *. cbn [app].
    apply tbind_Ok in H as ([] & H4 & H & -> & _). apply tbind_Ok in H as (wl & H5 & H & -> & _). rewrite tres_tret in H5. rewrite tlog_tret, tmemo_tret in *. cbn [app].
    apply tbind_Ok in H as (fi & H6 & H & -> & _). rewrite tlog_tret, tmemo_tret in *. cbn [app]. apply tbind_Ok in H as (bl & H7 & H & -> & _). rewrite tlog_tret, app_nil_r, tres_tret in *.
    apply bind_Ok in H as (? & _ & H). apply bind_Ok in H as (text & _ & H). injection H as <-. cbn [em_weight].
    assert (N : forall A (a : told A), fair a -> forall c0, ~ In EmptyWeight (told_log (a c0))) by (intros A a Ha c0 X; destruct (Ha _ _ X) as (? & X1 & _); discriminate).
    assert (E : p_identifiers wt = [] <-> wl = []).
    { destruct (parse_t_result U K p w c) as [Q1 _]. rewrite Q1 in H1. unfold einmix_parse in H1. destruct (str_split s_arrow p) as [|l [|r [|]]]; try discriminate.
      apply bind_Ok in H1 as ([l1 n1] & _ & H1). apply bind_Ok in H1 as ([r1 n2] & _ & H1). apply bind_Ok in H1 as ([w1 n3] & Hw & H1).
      apply (parse_expression_iff U HU) in Hw as (W & WW & Ew). repeat (apply bind_Ok in H1 as (? & _ & H1)). injection H1 as _ _ _ _ <- _.
      assert (Ew1 : w1 = fst (compile n2 W)) by (rewrite <- Ew; reflexivity). subst w1. clear Ew. rewrite (ids_eq n2 W).
      unfold weight_lengths, compile in H5. cbn [fst p_composition] in H5. destruct W as [|i W]; [cbn in H5; injection H5 as <-; split; reflexivity|]. cbn [comps mapM] in H5.
      apply bind_Ok in H5 as (z & H5 & H8). apply bind_Ok in H8 as (zs & _ & H8). injection H8 as <-. split; [|discriminate]. intros X. exfalso.
      apply bind_Ok in H5 as (a & H5 & _). unfold ids, atoms in X. cbn [flat_map] in X.
      assert (Y : atoms_axes n2 (item_atoms i ++ flat_map item_atoms W) = []).
      { destruct (atoms_axes n2 (item_atoms i ++ flat_map item_atoms W)) as [|y ys] eqn:Ea; [reflexivity|]. exfalso.
        assert (Z : In y (set_of (y :: ys))) by (apply RecipeFacts.set_of_In; left; reflexivity). rewrite X in Z. destruct Z. }
      apply (f_equal (@length _)) in Y. rewrite axes_length in Y. rewrite filter_app, app_length in Y.
      destruct i as [[s|q|]|g]; cbn in Y; try lia; cbn [item_comp] in H5.
      - destruct (q =? 1)%Z eqn:E1; cbn in Y; [|lia]. apply Z.eqb_eq in E1. subst q. discriminate.
      - destruct (atoms_axes n2 g) as [|y ys] eqn:Ea; [discriminate|]. apply (f_equal (@length _)) in Ea. rewrite axes_length in Ea. cbn in Ea. lia. }
    rewrite !in_app_iff. split.
    - intros [X|[X|[X|X]]]; [destruct (N _ _ (fair_mix_parse p w) _ X)|destruct (N _ _ (fair_layers os os' _ _) _ X)| |destruct (N _ _ (fair_bias _ _ _ _) _ X)].
      apply E. destruct (p_identifiers wt); [reflexivity|destruct X].
    - intros X. apply E in X. rewrite X. right. right. left. left. reflexivity.
  Qed.
End Fair.

(** ** einsum *)
Section Ein.
  Context (U : unicode) (HU : unicode_ok U) (K : pystr -> bool).
  Notation warned := (fun s => negb (str_eqb s ell_name) && negb (str_eqb s [c_under])).

  Lemma lefts_w_snd ss : forall acc k, snd (parse_lefts_w U K ss acc k) =
    foldM (fun '(lefts, next) s => let* (p, next) := parse_expression U true true next s in Ok (lefts ++ [p], next)) ss (acc, k).
  Proof.
    induction ss as [|s ss IH]; intros acc k; [reflexivity|]. cbn [parse_lefts_w foldM]. rewrite snd_wbind, parse_w_snd. destruct (parse_expression U true true k s) as [[p k']|e]; cbn [bind]; [apply IH|reflexivity].
  Qed.
  Lemma compactify_w_snd p : snd (compactify_w U K p) = compactify U p.
  Proof.
    unfold compactify_w, compactify. rewrite snd_wbind. cbn [wret snd]. destruct (raise_if _ ValueError); cbn [bind]; [|reflexivity]. destruct (str_split s_arrow p) as [|l [|r [|]]]; try reflexivity.
    rewrite snd_wbind, lefts_w_snd. destruct (foldM _ (str_split s_comma l) ([], 0)) as [[lefts nx]|e]; cbn [bind]; [|reflexivity]. rewrite snd_wbind, parse_w_snd.
    destruct (parse_expression U true false nx r) as [[rg n]|e]; reflexivity.
  Qed.
  Lemma item_names i x : item_entry i = Some x -> flat_map written_name (item_atoms i) = filter warned (entry_names [x]).
  Proof.
    assert (G : forall s, written_name (AName s) = filter warned [s]).
    { intros s. cbn [written_name filter]. destruct (str_eq_dec s ell_name) as [->|n1]; [reflexivity|]. destruct (str_eqb s ell_name) eqn:E1; [apply str_eqb_eq in E1; contradiction|].
      destruct (str_eq_dec s [c_under]) as [->|n2]; [reflexivity|]. destruct (str_eqb s [c_under]) eqn:E2; [apply str_eqb_eq in E2; contradiction|]. reflexivity. }
    destruct i as [a|l]; cbn [item_entry item_atoms].
    - destruct a as [s|n|]; cbn [flat_map]; rewrite ?app_nil_r; try discriminate; [|intros E; injection E as <-; reflexivity]. destruct (str_eqb s ell_name) eqn:E1; intros E; injection E as <-.
      + apply str_eqb_eq in E1. subst. reflexivity.
      + cbn [entry_names flat_map app]. apply G.
    - assert (C : flat_map written_name l = flat_map written_name (content (Group l))).
      { unfold content. cbn [item_atoms]. induction l as [|a l IH]; [reflexivity|]. cbn [filter flat_map]. rewrite IH. destruct a as [s|n|]; cbn [is_one negb flat_map]; try reflexivity. destruct (n =? 1)%Z; reflexivity. }
      rewrite C. destruct (content (Group l)) as [|[s|n|] [|]]; try discriminate; intros E; injection E as <-; cbn [flat_map entry_names app]; rewrite ?app_nil_r; [apply G|reflexivity].
  Qed.
  Lemma entries_names e es : map item_entry e = map Some es -> written_names e = filter warned (entry_names es).
  Proof.
    revert es. unfold written_names, atoms. induction e as [|i e IH]; intros [|x es] E; try discriminate; [reflexivity|]. cbn [map] in E. injection E as E1 E2. cbn [flat_map]. rewrite flat_map_app, (item_names i x E1), (IH es E2).
    cbn [entry_names flat_map]. rewrite app_nil_r, filter_app. reflexivity.
  Qed.
  Lemma lefts_w_log ss : forall es Ls, Forall2 (written_as U true true) ss es -> map (map item_entry) es = map (map Some) Ls -> forall acc k,
    exists r, parse_lefts_w U K ss acc k = (flat_map (discouraged K) (filter warned (all_names Ls)), Ok r).
  Proof.
    induction ss as [|s ss IH]; intros es Ls H E acc k; inversion H as [|? e ? es' He Hes]; subst; destruct Ls as [|L Ls]; try discriminate; [eexists; reflexivity|].
    cbn [map] in E. injection E as E1 E2. cbn [parse_lefts_w]. unfold wbind. rewrite (parse_alarms U K HU true true k s e He). cbn [fst snd]. rewrite (surjective_pairing (compile k e)).
    destruct (IH es' Ls Hes E2 (acc ++ [fst (compile k e)]) (snd (compile k e))) as [r ->]. cbn [fst snd]. exists r. rewrite (entries_names e L E1). unfold all_names. cbn [flat_map]. rewrite filter_app, flat_map_app. reflexivity.
  Qed.
  Lemma einsum_log p Ls R : einsum_reads U p Ls R -> fst (compactify_w U K p) = einsum_notices K Ls R.
  Proof.
    intros Hr. apply (einsum_reads_split U HU) in Hr as (l & r & E & HL & e & He & ER). unfold compactify_w. rewrite (contains_arrow _ _ _ E), E. unfold wbind at 1. cbn [negb raise_if wret fst snd app].
    apply Forall2_lists_inv in HL as (es & Hes & ELs). unfold wbind at 1. destruct (lefts_w_log (str_split s_comma l) es Ls Hes ELs [] 0) as [[lefts nx] X]. rewrite X. cbn [fst snd]. unfold wbind. rewrite (parse_alarms U K HU true false nx r e He). cbn [fst snd].
    rewrite (surjective_pairing (compile nx e)). cbn [wret fst snd]. rewrite app_nil_r, (entries_names e R ER). unfold einsum_notices. rewrite filter_app, flat_map_app. reflexivity.
  Qed.
  Lemma lefts_fair ss w : forall acc k, In w (fst (parse_lefts_w U K ss acc k)) -> justified U K w.
  Proof. induction ss as [|s ss IH]; intros acc k H; [destruct H|]. cbn [parse_lefts_w] in H. apply wbind_log in H as [H|[[p k'] [_ H]]]; [exact (parse_justified U K _ _ _ _ _ H)|exact (IH _ _ H)]. Qed.
  Lemma einsum_fair p w : In w (fst (compactify_w U K p)) -> justified U K w.
  Proof.
    unfold compactify_w. intros H. apply wbind_log in H as [[]|[_ [_ H]]]. destruct (str_split s_arrow p) as [|l [|r [|]]]; try destruct H. apply wbind_log in H as [H|[[ls nx] [_ H]]]; [exact (lefts_fair _ _ _ _ H)|].
    apply wbind_log in H as [H|[[rg n] [_ []]]]. exact (parse_justified U K _ _ _ _ _ H).
  Qed.
End Ein.

Lemma mix_strict {T} U (HU : unicode_ok U) K m os os' p w b sizes L R W Bn (M : einmix T) : reads U p L R -> written U w W -> plain L -> plain R -> plain W ->
  match b with BiasText text => exists B, written U text B /\ Bn = SpecWarnings.written_names B | _ => Bn = [] end ->
  told_result (EinMix_t U K m os os' p w b sizes []) = Ok M ->
  strictly_told (EinMix_t U K m os os' p w b sizes []) = match mix_notices K L R W Bn (map fst sizes) with n :: _ => RaisedNotice n | [] => WentOn (Ok M) end.
Proof. intros Hr HW PL PR PW HB H. unfold strictly_told. rewrite (mix_log U HU K m os os' p w b sizes L R W Bn M Hr HW PL PR PW HB H), H. reflexivity. Qed.
