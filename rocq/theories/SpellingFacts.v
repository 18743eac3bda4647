(** * Spelling of patterns and order of lengths, for layers, EinMix and einsum *)
From Coq Require Import Permutation.
From Verif Require Import Py Tensor TensorFacts ListFacts SpecSem SpecGrammar SpecEinsum SpecPattern SpecForms SpecOps SpecSpelling Parsing Compile Recipe Ops Backends Api Packing
  ParseFacts ParseFacts2 ParseFacts3 ParseLaws StepFacts FrontFacts FrontFacts2 FrontFacts3 MainFacts MainFacts2 ReduceFacts MainFacts3 CallFacts RelabelFacts ApiFacts ApiFacts6
  TextFacts EinsumFacts2 Layers Einsum LayerFacts EinMix SpecEinMix MixFacts MixFacts4 MixFacts9.

Section Outcomes.
  Context {X Y : Type} (R : X -> X -> Prop) (S : Y -> Y -> Prop).
  Lemma outcome_bind m m' (f f' : X -> result Y) : same_outcome R m m' -> (forall a a', R a a' -> same_outcome S (f a) (f' a')) ->
    same_outcome S (bind m f) (bind m' f').
  Proof. destruct m, m'; cbn; intros H G; try contradiction; auto. Qed.
  Lemma outcome_eq (m : result X) : same_outcome eq m m.
  Proof. destruct m; reflexivity. Qed.
  Lemma outcome_same (m m' : result Y) (f f' : Y -> result X) : m = m' -> (forall a, same_outcome R (f a) (f' a)) -> same_outcome R (bind m f) (bind m' f').
  Proof. intros <- H. destruct m; cbn; auto. Qed.
End Outcomes.

Lemma filter_permuted {X} (f : X -> bool) l m : Permutation l m -> Permutation (filter f l) (filter f m).
Proof.
  induction 1 as [|x l m _ IH|x y l|l m k _ IH1 _ IH2]; cbn [filter]; [constructor|destruct (f x); auto| |eapply Permutation_trans; eauto].
  destruct (f x), (f y); auto using Permutation_refl. apply perm_swap.
Qed.

Section Sides.
  Context (U : unicode) (HU : unicode_ok U).
  (** read alike, errors included *)
  Lemma same_side_as_alike au ad s s' k : same_side_as U au ad s s' -> parse_expression U au ad k s = parse_expression U au ad k s'.
  Proof.
    intros [H|(e & e' & H & H' & E)]; [apply same_words_parse; auto|]. exact (simple_parse U au ad k s s' e e' HU H H' E).
  Qed.
  Definition alike_text (s s' : pystr) : Prop := forall k, parse_expression U false false k s = parse_expression U false false k s'.
  Lemma same_side_alike s s' : same_side U s s' -> alike_text s s'.
  Proof. intros H k. apply same_side_as_alike, H. Qed.

  Lemma identifier_minus s : isidentifier U s = true -> ~ In c_minus s.
  Proof.
    intros H Hc. destruct (id_char U s c_minus HU H Hc ltac:(reflexivity)) as [X|[X|X]]; discriminate.
  Qed.
  Lemma flat_minus k t p k' : parse_expression U false false k t = Ok (p, k') -> Forall (fun x => ~ In c_minus x) (flat_texts p).
  Proof.
    intros H. apply (parse_expression_iff U HU) in H as (e & He & E). apply (f_equal fst) in E. cbn [fst] in E. subst p.
    apply Forall_forall. intros x Hx. unfold flat_texts in Hx. apply in_map_iff in Hx as (a & <- & Ha). rewrite flat_axes_compile in Ha.
    destruct a as [s|j z]; [|intros []]. unfold axis_text. destruct (str_eqb s ellipsis_str) eqn:Es; [intros Hc; cbn in Hc; repeat (destruct Hc as [Hc|Hc]; [discriminate|]); exact Hc|].
    assert (Hk : s = ellipsis_str \/ In s (keys e)).
    { unfold keys. clear -Ha. revert k Ha. induction (atoms e) as [|b l IH]; intros k Ha; [destruct Ha|]. cbn [atoms_axes] in Ha. apply in_app_or in Ha as [Ha|Ha].
      - destruct b as [t|n|]; cbn in Ha.
        + destruct Ha as [Ha|[]]. injection Ha as ->. right. left. reflexivity.
        + destruct (n =? 1)%Z; [destruct Ha|]. destruct Ha as [Ha|[]]. discriminate.
        + destruct Ha as [Ha|[]]. injection Ha as <-. left. reflexivity.
      - destruct (IH _ Ha) as [G|G]; [left; exact G|right; cbn [flat_map]; apply in_or_app; right; exact G]. }
    destruct Hk as [->|Hk]; [intros Hc; cbn in Hc; destruct Hc as [Hc|[]]; discriminate|].
    destruct (written_keys U _ _ _ _ _ He Hk) as [->|Hi]; [intros [Hc|[]]; discriminate|]. apply identifier_minus, Hi.
  Qed.
  Lemma join_minus l : Forall (fun x => ~ In c_minus x) l -> ~ In c_minus (str_join (lit " ") l).
  Proof.
    induction 1 as [|x l Hx Hl IH]; [intros []|]. destruct l as [|y l]; [exact Hx|].
    change (str_join (lit " ") (x :: y :: l)) with (x ++ lit " " ++ str_join (lit " ") (y :: l)). intros Hi.
    apply in_app_or in Hi as [Hi|Hi]; [contradiction|]. destruct Hi as [Hi|Hi]; [discriminate|]. apply IH, Hi.
  Qed.

  Lemma all_dims_same os op names l q l' q' : no_arrow l -> no_arrow q -> no_arrow l' -> no_arrow q' -> alike_text l l' -> alike_text q q' ->
    prepare_all_dims U os (l ++ lit "->" ++ q) op names = prepare_all_dims U os (l' ++ lit "->" ++ q') op names.
  Proof.
    intros H1 H2 H3 H4 El Eq.
    assert (G : forall o n, prepare_recipe U o (l ++ lit "->" ++ q) op names n = prepare_recipe U o (l' ++ lit "->" ++ q') op names n) by (intros; apply prepare_same; auto).
    apply no_arrow_free in H1. apply no_arrow_free in H2. apply no_arrow_free in H3. apply no_arrow_free in H4.
    unfold prepare_all_dims. change (lit "->") with s_arrow in *. rewrite !split_one_arrow, !split_free by assumption. rewrite (El 0).
    apply bind_ext. intros [lft k] _. induction (dims_of_left lft) as [|n d IH]; [reflexivity|]. cbn [mapM]. rewrite G, IH. reflexivity.
  Qed.

  Lemma preparable_perm pattern op names names' L R e : Permutation names names' -> preparable U pattern op names L R e -> preparable U pattern op names' L R e.
  Proof.
    intros Hp [H1 (w & Hw & Hi) H3 H4 H5 H6].
    assert (Em : forall s, str_mem s names' = str_mem s names).
    { intros s. apply eq_true_iff_eq. rewrite !str_mem_In. split; intros X; [apply (Permutation_in _ (Permutation_sym Hp) X)|apply (Permutation_in _ Hp X)]. }
    split; auto.
    - exists w. split; [exact Hw|]. destruct w; cbn in *; auto. destruct Hi as (I1 & I2 & I3). split; [exact I1|]. split; [exact I2|].
      intros s Hs. apply in_app_iff. destruct (in_app_or _ _ _ (I3 s Hs)) as [X|X]; [left; exact X|right; apply (Permutation_in _ Hp X)].
    - intros s Hs. apply H5, (Permutation_in _ (Permutation_sym Hp) Hs).
    - intros g Hg. specialize (H6 g Hg). rewrite (filter_ext (unknown names') (unknown names)); [exact H6|]. intros [s| |]; cbn; auto. rewrite Em. reflexivity.
  Qed.

  Context {A : Type}.
  Implicit Types (L : layer (tensor A)).
  Notation same L L' := (same_layer U L L').

  Lemma same_trans L1 L2 L3 : same L1 L2 -> same L2 L3 -> same L1 L3.
  Proof. intros H1 H2 r x Hr Hu. rewrite H2 by auto. apply H1; auto. Qed.

  Lemma remade_any os os' pattern (red : reduction (tensor A)) sizes sizes' L : (forall n, orders_ok (os n)) -> (forall n, orders_ok (os' n)) ->
    NoDup (map fst sizes) -> Permutation sizes sizes' -> make_layer U os pattern red sizes = Ok L ->
    exists L', make_layer U os' pattern red sizes' = Ok L' /\ same L L'.
  Proof.
    intros Ho Ho' Hn Hp H. pose proof H as H0. unfold make_layer in H0. apply bind_Ok in H0 as [recipes [H0 _]].
    apply all_dims_ok in H0 as (l & rr & Hpre & _); [|exact HU|exact Ho].
    assert (Hpn : Permutation (map fst sizes) (map fst sizes')) by (apply Permutation_map; auto).
    assert (Hn' : NoDup (map fst sizes')) by (eapply Permutation_NoDup; eauto).
    destruct (all_dims_made U HU pattern (op_of red) (map fst sizes') os' l rr Ho') as [recipes' E'].
    { intros e. eapply preparable_perm; [exact Hpn|apply Hpre]. }
    exists (mkLayer pattern red sizes' recipes').
    assert (H' : make_layer U os' pattern red sizes' = Ok (mkLayer pattern red sizes' recipes')) by (unfold make_layer; rewrite E'; reflexivity).
    split; [exact H'|]. intros r x Hok <-.
    destruct (call_layer_spec r Hok pattern red sizes Hn os L x Ho H) as (l1 & r1 & Hr1 & ->).
    destruct (call_layer_spec r Hok pattern red sizes' Hn' os' _ x Ho' H') as (l2 & r2 & Hr2 & ->).
    destruct (reads_fun (rt_unicode r) (ro_unicode _ Hok) pattern l1 r1 l2 r2 Hr1 Hr2) as [<- <-].
    rewrite (core_call_inv (rt_unicode r) (ro_unicode _ Hok) (rt_orders r) (rt_orders r) (ro_orders _ Hok) (ro_orders _ Hok) (rt_lib r) _ _ pattern (op_of red) sizes sizes' x Hn Hp).
    reflexivity.
  Qed.

  Lemma make_reordered os os' pattern (red : reduction (tensor A)) sizes sizes' : (forall n, orders_ok (os n)) -> (forall n, orders_ok (os' n)) ->
    NoDup (map fst sizes) -> Permutation sizes sizes' -> same_outcome (same_layer U) (make_layer U os pattern red sizes) (make_layer U os' pattern red sizes').
  Proof.
    intros Ho Ho' Hn Hp. assert (Hpn : Permutation (map fst sizes) (map fst sizes')) by (apply Permutation_map; auto).
    assert (Hn' : NoDup (map fst sizes')) by (eapply Permutation_NoDup; eauto).
    destruct (make_layer U os pattern red sizes) as [P|ex] eqn:E.
    - destruct (remade_any os os' pattern red sizes sizes' P Ho Ho' Hn Hp E) as (P' & E' & H). rewrite E'. exact H.
    - destruct (make_layer U os' pattern red sizes') as [P'|ex'] eqn:E'.
      + destruct (remade_any os' os pattern red sizes' sizes P' Ho' Ho Hn' (Permutation_sym Hp) E') as (P & E1 & _). congruence.
      + unfold make_layer in E, E'. apply bind_Err in E as [E|[q [_ E]]]; [|discriminate]. apply bind_Err in E' as [E'|[q [_ E']]]; [|discriminate].
        pose proof (all_dims_error U HU pattern (op_of red) (map fst sizes) os ex Ho E (os 0) 0 (Ho 0)) as F1.
        pose proof (all_dims_error U HU pattern (op_of red) (map fst sizes') os' ex' Ho' E' (os 0) 0 (Ho 0)) as F2.
        apply prepare_error in F1; auto. apply prepare_error in F2; auto. cbn. congruence.
  Qed.

  Lemma make_spelled os os' (red : reduction (tensor A)) sizes sizes' l q l' q' : (forall n, orders_ok (os n)) -> (forall n, orders_ok (os' n)) ->
    NoDup (map fst sizes) -> Permutation sizes sizes' -> no_arrow l -> no_arrow q -> no_arrow l' -> no_arrow q' -> alike_text l l' -> alike_text q q' ->
    same_outcome (same_layer U) (make_layer U os (l ++ lit "->" ++ q) red sizes) (make_layer U os' (l' ++ lit "->" ++ q') red sizes').
  Proof.
    intros Ho Ho' Hn Hp H1 H2 H3 H4 El Eq. pose proof (make_reordered os os' (l' ++ lit "->" ++ q') red sizes sizes' Ho Ho' Hn Hp) as G.
    unfold make_layer at 1. unfold make_layer at 1 in G. rewrite (all_dims_same os _ _ l q l' q') by auto.
    destruct (prepare_all_dims U os (l' ++ lit "->" ++ q') (op_of red) (map fst sizes)) as [recipes|ex]; cbn [bind] in *; [|exact G].
    destruct (make_layer U os' _ red sizes') as [L'|ex]; cbn in *; [|exact G]. intros r x Hr Hu. rewrite (G r x Hr Hu). reflexivity.
  Qed.

  Lemma kwargs_perm reserved (sizes sizes' : list (pystr * Z)) : Permutation sizes sizes' -> check_kwargs reserved sizes = check_kwargs reserved sizes'.
  Proof.
    intros Hp. unfold check_kwargs. f_equal. apply eq_true_iff_eq. rewrite !existsb_exists.
    split; intros (x & Hx & E); exists x; (split; [|exact E]); [apply (Permutation_in _ Hp Hx)|apply (Permutation_in _ (Permutation_sym Hp) Hx)].
  Qed.

  Lemma rearrange_spelled os os' sizes sizes' l q l' q' : (forall n, orders_ok (os n)) -> (forall n, orders_ok (os' n)) ->
    NoDup (map fst sizes) -> Permutation sizes sizes' -> no_arrow l -> no_arrow q -> no_arrow l' -> no_arrow q' -> alike_text l l' -> alike_text q q' ->
    same_outcome (same_layer U) (Rearrange (T := tensor A) U os (l ++ lit "->" ++ q) sizes) (Rearrange U os' (l' ++ lit "->" ++ q') sizes').
  Proof.
    intros Ho Ho' Hn Hp H1 H2 H3 H4 El Eq. unfold Rearrange. rewrite (kwargs_perm _ _ _ Hp). destruct (check_kwargs _ sizes') as [u|ex]; cbn [bind]; [|reflexivity].
    apply make_spelled; auto.
  Qed.
  Lemma reduce_spelled os os' (red : reduction (tensor A)) sizes sizes' l q l' q' : (forall n, orders_ok (os n)) -> (forall n, orders_ok (os' n)) ->
    NoDup (map fst sizes) -> Permutation sizes sizes' -> no_arrow l -> no_arrow q -> no_arrow l' -> no_arrow q' -> alike_text l l' -> alike_text q q' ->
    same_outcome (same_layer U) (Reduce U os (l ++ lit "->" ++ q) red sizes) (Reduce U os' (l' ++ lit "->" ++ q') red sizes').
  Proof.
    intros Ho Ho' Hn Hp H1 H2 H3 H4 El Eq. unfold Reduce. rewrite (kwargs_perm _ _ _ Hp). destruct (check_kwargs _ sizes') as [u|ex]; cbn [bind]; [|reflexivity].
    apply make_spelled; auto.
  Qed.
End Sides.

(** ** EinMix *)
Section Mix.
  Context {A : Type} (U : unicode) (HU : unicode_ok U).
  Context (os1 os1' os2 os2' : nat -> orders) (H1 : forall n, orders_ok (os1 n)) (H1' : forall n, orders_ok (os1' n))
    (H2 : forall n, orders_ok (os2 n)) (H2' : forall n, orders_ok (os2' n)).
  Context (l q l' q' wt wt' : pystr) (bt bt' : option pystr) (sizes sizes' : list (pystr * Z)).
  Context (Nl : no_arrow l) (Nq : no_arrow q) (Nl' : no_arrow l') (Nq' : no_arrow q').
  Context (El : alike_text U l l') (Eq : alike_text U q q') (Ew : alike_text U wt wt') (Eb : same_option (alike_text U) bt bt').
  Context (Ep : existsb (fun c => (c =? c_open)%N || (c =? c_close)%N) wt = existsb (fun c => (c =? c_open)%N || (c =? c_close)%N) wt').
  Context (Hn : NoDup (map fst sizes)) (Hp : Permutation sizes sizes').

  Lemma perm_get s : dict_get str_eqb s sizes = dict_get str_eqb s sizes'.
  Proof. apply dict_get_perm; auto. Qed.
  Lemma perm_length_of a : length_of sizes a = length_of sizes' a.
  Proof. unfold length_of. destruct a as [s|]; [|reflexivity]. rewrite perm_get. reflexivity. Qed.

  Definition parsed_alike (a b : pystr * pystr * parsed * parsed * parsed * nat) : Prop :=
    exists lft rght weight next, a = (l, q, lft, rght, weight, next) /\ b = (l', q', lft, rght, weight, next) /\
      Forall (fun x => ~ In c_minus x) (flat_texts lft) /\ Forall (fun x => ~ In c_minus x) (flat_texts rght).
  Lemma parse_spelled : same_outcome parsed_alike (einmix_parse U (l ++ lit "->" ++ q) wt) (einmix_parse U (l' ++ lit "->" ++ q') wt').
  Proof.
    pose proof (proj1 (no_arrow_free _) Nl) as Fl. pose proof (proj1 (no_arrow_free _) Nq) as Fq.
    pose proof (proj1 (no_arrow_free _) Nl') as Fl'. pose proof (proj1 (no_arrow_free _) Nq') as Fq'.
    unfold einmix_parse. change (lit "->") with s_arrow. rewrite !split_one_arrow, !split_free by assumption. rewrite (El 0), Ep.
    destruct (parse_expression U false false 0 l') as [[lft k]|ex] eqn:P1; cbn [bind]; [|reflexivity]. rewrite (Eq k).
    destruct (parse_expression U false false k q') as [[rght k2]|ex] eqn:P2; cbn [bind]; [|reflexivity]. rewrite (Ew k2).
    destruct (parse_expression U false false k2 wt') as [[weight k3]|ex] eqn:P3; cbn [bind]; [|reflexivity].
    repeat (match goal with |- same_outcome _ (bind ?m _) (bind ?m _) => destruct m; cbn [bind]; [|reflexivity] end).
    cbn. exists lft, rght, weight, k3. split; [reflexivity|]. split; [reflexivity|]. split; eapply flat_minus; eauto.
  Qed.

  Lemma check_spelled lft rght weight : einmix_check lft rght weight sizes = einmix_check lft rght weight sizes'.
  Proof.
    unfold einmix_check. f_equal.
    - f_equal. clear -Hn Hp. induction (p_identifiers weight) as [|a m IH]; [reflexivity|]. cbn [existsb]. rewrite IH. f_equal.
      destruct a as [s|]; [|reflexivity]. unfold dict_has. rewrite perm_get. reflexivity.
    - assert (E : report_axes (set_diff (map AxName (map fst sizes)) (set_union (p_identifiers lft) (p_identifiers weight))) =
                  report_axes (set_diff (map AxName (map fst sizes')) (set_union (p_identifiers lft) (p_identifiers weight)))); [|rewrite E; reflexivity].
      assert (P : Permutation (set_diff (map AxName (map fst sizes)) (set_union (p_identifiers lft) (p_identifiers weight)))
                              (set_diff (map AxName (map fst sizes')) (set_union (p_identifiers lft) (p_identifiers weight)))).
      { unfold set_diff. apply filter_permuted, Permutation_map, Permutation_map, Hp. }
      unfold report_axes. destruct (set_diff (map AxName (map fst sizes)) _) as [|a m].
      + apply Permutation_nil in P. rewrite P. reflexivity.
      + destruct (set_diff (map AxName (map fst sizes')) _) as [|b m']; [apply Permutation_sym, Permutation_nil in P; discriminate|reflexivity].
  Qed.
  Lemma weight_spelled weight : weight_lengths weight sizes = weight_lengths weight sizes'.
  Proof.
    unfold weight_lengths. apply mapM_ext_in. intros c _. apply bind_ext. intros a _. apply perm_length_of.
  Qed.
  Lemma fan_spelled rght weight : fan_in rght weight sizes = fan_in rght weight sizes'.
  Proof.
    unfold fan_in. apply bind_ext. intros axes _. rewrite (mapM_ext_in (length_of sizes) (length_of sizes')); [reflexivity|]. intros a _. apply perm_length_of.
  Qed.
  Lemma step_spelled ids st a : bias_step ids sizes st a = bias_step ids sizes' st a.
  Proof. unfold bias_step. destruct st. destruct (axis_eqb a ax_ellipsis); [reflexivity|]. destruct (axis_mem a ids); [|reflexivity]. rewrite perm_length_of. reflexivity. Qed.
  Lemma bias_spelled rght next : bias_lengths U rght next bt sizes = bias_lengths U rght next bt' sizes'.
  Proof.
    unfold bias_lengths. destruct bt as [t|], bt' as [t'|]; try contradiction; [|reflexivity]. cbn in Eb. rewrite (Eb next). apply bind_ext. intros [bias k] _. apply bind_ext. intros _ _.
    f_equal.
    - unfold report_axes. f_equal. f_equal. unfold set_diff.
      rewrite (filter_ext (fun x => negb (axis_mem x (map AxName (map fst sizes)))) (fun x => negb (axis_mem x (map AxName (map fst sizes'))))); [reflexivity|].
      intros a. f_equal. unfold axis_mem. apply eq_true_iff_eq. rewrite !existsb_exists.
      assert (P : Permutation (map AxName (map fst sizes)) (map AxName (map fst sizes'))) by (apply Permutation_map, Permutation_map, Hp).
      split; intros (x & Hx & E); exists x; (split; [|exact E]); [apply (Permutation_in _ P Hx)|apply (Permutation_in _ (Permutation_sym P) Hx)].
    - assert (E : forall m st, foldM (bias_step (p_identifiers bias) sizes) m st = foldM (bias_step (p_identifiers bias) sizes') m st).
      { induction m as [|a m IH]; intros st; [reflexivity|]. cbn [foldM]. rewrite step_spelled. apply bind_ext. intros st' _. apply IH. }
      rewrite E. reflexivity.
  Qed.

  Lemma layers_spelled lft rght : Forall (fun x => ~ In c_minus x) (flat_texts lft) -> Forall (fun x => ~ In c_minus x) (flat_texts rght) ->
    same_outcome (fun PQ PQ' => forall r x, runtime_ok r -> rt_unicode r = U ->
        call_option r (fst PQ') x = call_option r (fst PQ) x /\ call_option r (snd PQ') x = call_option r (snd PQ) x /\
        (fst PQ = None <-> fst PQ' = None) /\ (snd PQ = None <-> snd PQ' = None))
      (rearrange_layers (T := tensor A) U os1 os1' (pre_reshape l lft sizes) (post_reshape q rght))
      (rearrange_layers U os2 os2' (pre_reshape l' lft sizes') (post_reshape q' rght)).
  Proof.
    intros Fl Fr. unfold rearrange_layers.
    apply (outcome_bind (fun P P' => forall r x, runtime_ok r -> rt_unicode r = U -> call_option (A := A) r P' x = call_option r P x /\ (P = None <-> P' = None))).
    - unfold pre_reshape. destruct (any_composed lft); [|cbn; auto; intros; split; [reflexivity|tauto]].
      eapply (outcome_bind (same_layer U)).
      + set (J := str_join (lit " ") (flat_texts lft)).
        change (lit "-> " ++ J) with (lit "->" ++ (c_space :: J)). apply rearrange_spelled; auto.
        * clear -Hn. induction sizes as [|[k z] d IH]; [constructor|]. inversion Hn as [|? ? N1 N2]; subst. cbn [filter]. destruct (str_mem k (flat_texts lft)); [|apply IH, N2].
          cbn [map]. constructor; [|apply IH, N2]. intros X. apply N1. apply in_map_iff in X as [y [E X]]. apply filter_In in X as [X _]. apply in_map_iff. exists y. auto.
        * apply filter_permuted, Hp.
        * apply no_arrow_free, no_minus_free. intros [Hc|Hc]; [discriminate|]. revert Hc. apply join_minus, Fl.
        * apply no_arrow_free, no_minus_free. intros [Hc|Hc]; [discriminate|]. revert Hc. apply join_minus, Fl.
        * intros k. reflexivity.
      + intros P P' H r x Hr Hu. cbn [call_option]. split; [apply H; auto|]. split; discriminate.
    - intros P P' HP.
      apply (outcome_bind (fun Q Q' => forall r x, runtime_ok r -> rt_unicode r = U -> call_option (A := A) r Q' x = call_option r Q x /\ (Q = None <-> Q' = None))).
      + unfold post_reshape. destruct (any_composed rght || _); [|cbn; auto; intros; split; [reflexivity|tauto]].
        eapply (outcome_bind (same_layer U)).
        * set (J := str_join (lit " ") (flat_texts rght)).
          assert (E : forall t, J ++ lit " ->" ++ t = (J ++ lit " ") ++ lit "->" ++ t) by (intros t; rewrite <- app_assoc; reflexivity). rewrite !E.
          apply rearrange_spelled; auto; try (constructor).
          -- apply no_arrow_free, no_minus_free. intros Hc. apply in_app_or in Hc as [Hc|[Hc|[]]]; [|discriminate]. revert Hc. apply join_minus, Fr.
          -- apply no_arrow_free, no_minus_free. intros Hc. apply in_app_or in Hc as [Hc|[Hc|[]]]; [|discriminate]. revert Hc. apply join_minus, Fr.
        * intros Q Q' H r x Hr Hu. cbn [call_option]. split; [apply H; auto|]. split; discriminate.
      + intros Q Q' HQ. cbn. intros r x Hr Hu. destruct (HP r x Hr Hu) as [G1 G2], (HQ r x Hr Hu) as [G3 G4]. auto.
  Qed.

  Definition mix_alike (M M' : einmix (tensor A)) : Prop :=
    em_weight M' = em_weight M /\ em_bias M' = em_bias M /\ em_fan_in M' = em_fan_in M /\ em_einsum M' = em_einsum M /\
    forall r lib iadd w b x, runtime_ok r -> rt_unicode r = U -> call_einmix r lib iadd M' w b x = call_einmix r lib iadd M w b x.
  Lemma einmix_spelled : same_outcome mix_alike (EinMix U os1 os1' (l ++ lit "->" ++ q) wt bt sizes) (EinMix U os2 os2' (l' ++ lit "->" ++ q') wt' bt' sizes').
  Proof.
    unfold EinMix. rewrite (kwargs_perm _ _ _ Hp). destruct (check_kwargs _ sizes') as [u|ex]; cbn [bind]; [|reflexivity].
    unfold initialize_einmix. eapply outcome_bind; [apply parse_spelled|]. intros a a' (lft & rght & weight & next & -> & -> & Fl & Fr).
    eapply outcome_bind; [apply (layers_spelled lft rght Fl Fr)|]. intros [P Q] [P' Q'] Hlayers.
    rewrite (check_spelled lft rght weight), (weight_spelled weight), (fan_spelled rght weight), (bias_spelled rght next).
    do 6 (match goal with |- same_outcome _ (bind ?m _) (bind ?m _) => destruct m; cbn [bind]; [|reflexivity] end).
    cbn. unfold mix_alike. cbn [em_weight em_bias em_fan_in em_einsum]. repeat (split; [reflexivity|]).
    intros r lib iadd w b x Hr Hu. unfold call_einmix. cbn [em_pre em_post em_einsum]. destruct (Hlayers r x Hr Hu) as [G _]. cbn [fst] in G. rewrite G. apply bind_ext. intros x' _. apply bind_ext. intros y _.
    apply bind_ext. intros y2 _. apply (Hlayers r y2 Hr Hu).
  Qed.
End Mix.

(** ** einsum, parse_shape, pack and unpack *)
Section Others.
  Context (U : unicode) (HU : unicode_ok U).
  Lemma compactify_spelled ls ls' q q' : ls <> [] -> Forall2 (same_side_as U true true) ls ls' -> same_side_as U true false q q' ->
    Forall (fun s => ~ In c_comma s) ls -> Forall (fun s => ~ In c_comma s) ls' ->
    no_arrow (str_join (lit ",") ls) -> no_arrow (str_join (lit ",") ls') -> no_arrow q -> no_arrow q' ->
    compactify U (str_join (lit ",") ls ++ lit "->" ++ q) = compactify U (str_join (lit ",") ls' ++ lit "->" ++ q').
  Proof.
    intros Hne Hs Hq C C' Nl Nl' Nq Nq'. apply no_arrow_free in Nl. apply no_arrow_free in Nl'. apply no_arrow_free in Nq. apply no_arrow_free in Nq'.
    assert (Hne' : ls' <> []) by (intros ->; inversion Hs; subst; contradiction).
    unfold compactify. change (lit "->") with s_arrow. change (lit ",") with s_comma in *.
    assert (S : forall a b, arrow_free a -> arrow_free b -> str_split s_arrow (a ++ s_arrow ++ b) = [a; b]) by (intros a b Ha Hb; rewrite split_one_arrow, split_free by assumption; reflexivity).
    rewrite (contains_arrow _ _ _ (S _ _ Nl Nq)), (contains_arrow _ _ _ (S _ _ Nl' Nq')). cbn [negb raise_if bind]. rewrite !S by assumption.
    assert (E : str_split s_comma (str_join s_comma ls) = ls) by (apply split_char; auto). assert (E' : str_split s_comma (str_join s_comma ls') = ls') by (apply split_char; auto).
    rewrite E, E'. clear E E' S.
    assert (F : forall st, foldM (fun '(lefts, next) s => let* (p, next) := parse_expression U true true next s in Ok (lefts ++ [p], next)) ls st =
                           foldM (fun '(lefts, next) s => let* (p, next) := parse_expression U true true next s in Ok (lefts ++ [p], next)) ls' st).
    { clear -Hs HU. induction Hs as [|s s' ls ls' H _ IH]; intros [lefts next]; [reflexivity|]. cbn [foldM].
      rewrite (same_side_as_alike U HU true true s s' next H). apply bind_ext. intros st _. apply IH. }
    rewrite F. apply bind_ext. intros [lefts next] _. rewrite (same_side_as_alike U HU true false q q' next Hq). reflexivity.
  Qed.
  Lemma einsum_spelled {T} (lib_einsum : pystr -> list T -> result T) (args : list (T + pystr)) p p' : compactify U p = compactify U p' ->
    einsum_with U lib_einsum (args ++ [inr p]) = einsum_with U lib_einsum (args ++ [inr p']).
  Proof.
    intros E. unfold einsum_with, einsum_given. rewrite !app_length, !last_last, !removelast_last, E. reflexivity.
  Qed.
  Lemma parse_shape_spelled shape s s' : same_side_as U true false s s' -> parse_shape U shape s = parse_shape U shape s'.
  Proof. intros H. unfold parse_shape. rewrite (same_side_as_alike U HU true false s s' 0 H). reflexivity. Qed.
  Lemma analyze_spelled p p' : same_list U p p' -> analyze_pattern U p = analyze_pattern U p'.
  Proof. intros H. unfold analyze_pattern. rewrite H. reflexivity. Qed.
End Others.

(** parentheses are tokens *)
Lemma spells_parentheses s ts : spells s ts ->
  existsb (fun c => (c =? c_open)%N || (c =? c_close)%N) s = existsb (fun t => match t with TOpen | TClose => true | TWord _ => false end) ts.
Proof.
  induction 1 as [|s ts _ IH|s ts _ IH|s ts _ IH|w s ts Hw Hc _ _ IH]; cbn [existsb]; auto.
  rewrite existsb_app, IH. cbn [existsb].
  assert (E : existsb (fun c => (c =? c_open)%N || (c =? c_close)%N) w = false).
  { apply not_true_is_false. rewrite existsb_exists. intros (c & Hi & E). apply (Hc c Hi). apply orb_true_iff in E as [E|E]; apply N.eqb_eq in E; subst; [left|right; left]; reflexivity. }
  rewrite E. reflexivity.
Qed.

Lemma pack_spelled {A} (r : runtime A) p p' : same_list (rt_unicode r) p p' ->
  (forall xs, pack r xs p = pack r xs p' /\ xp_pack r xs p = xp_pack r xs p') /\
  (forall x ps, unpack r x ps p = unpack r x ps p' /\ xp_unpack r x ps p = xp_unpack r x ps p').
Proof.
  intros H. split; intros; unfold pack, unpack, xp_pack, xp_unpack, pack_with, unpack_with; rewrite (analyze_spelled _ p p' H); auto.
Qed.

Lemma einmix_spellings {A} U os1 os1' os2 os2' l q l' q' wt wt' bt bt' sizes sizes' : unicode_ok U ->
  (forall n, orders_ok (os1 n)) -> (forall n, orders_ok (os1' n)) -> (forall n, orders_ok (os2 n)) -> (forall n, orders_ok (os2' n)) ->
  no_arrow l -> no_arrow q -> no_arrow l' -> no_arrow q' -> same_side U l l' -> same_side U q q' -> same_words wt wt' -> same_option (same_side U) bt bt' ->
  NoDup (map fst sizes) -> Permutation sizes sizes' ->
  same_outcome (mix_alike (A := A) U) (EinMix U os1 os1' (l ++ lit "->" ++ q) wt bt sizes) (EinMix U os2 os2' (l' ++ lit "->" ++ q') wt' bt' sizes').
Proof.
  intros HU H1 H1' H2 H2' Nl Nq Nl' Nq' El Eq Ew Eb Hn Hp. apply einmix_spelled; auto.
  - apply same_side_alike; auto.
  - apply same_side_alike; auto.
  - apply same_side_alike; auto. left. exact Ew.
  - destruct bt as [t|], bt' as [t'|]; try exact Eb. cbn in *. apply same_side_alike; auto.
  - destruct Ew as (ts & S1 & S2). rewrite (spells_parentheses _ _ S1), (spells_parentheses _ _ S2). reflexivity.
Qed.

Lemma layer_spellings {A} U os os' sizes sizes' l q l' q' : unicode_ok U -> (forall n, orders_ok (os n)) -> (forall n, orders_ok (os' n)) ->
  NoDup (map fst sizes) -> Permutation sizes sizes' -> no_arrow l -> no_arrow q -> no_arrow l' -> no_arrow q' -> same_side U l l' -> same_side U q q' ->
  same_outcome (same_layer U) (Rearrange (T := tensor A) U os (l ++ lit "->" ++ q) sizes) (Rearrange U os' (l' ++ lit "->" ++ q') sizes') /\
  forall red : reduction (tensor A), same_outcome (same_layer U) (Reduce U os (l ++ lit "->" ++ q) red sizes) (Reduce U os' (l' ++ lit "->" ++ q') red sizes').
Proof.
  intros HU Ho Ho' Hn Hp Nl Nq Nl' Nq' El Eq.
  split; [apply (rearrange_spelled U HU)|intros red; apply (reduce_spelled U HU)]; auto; apply same_side_alike; auto.
Qed.
