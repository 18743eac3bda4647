(** * EinMix: iteration order of sets *)
From Verif Require Import Py Tensor TensorFacts ListFacts SpecSem SpecGrammar SpecEinsum SpecPattern SpecForms SpecOps Parsing Compile Recipe Ops Backends Api
  ParseFacts ParseFacts2 ParseFacts3 StepFacts FrontFacts FrontFacts2 FrontFacts3 MainFacts MainFacts2 MainFacts3 CallFacts ApiFacts ApiFacts2 ApiFacts6 EinsumFacts EinsumFacts2 EinsumFacts3 EinsumFacts4
  Layers Einsum LayerFacts EinMix SpecEinMix MixFacts MixFacts2 MixFacts3 MixFacts4 MixFacts5 MixFacts6 MixFacts7 MixFacts8.
From Coq Require Import Permutation.

(** ** sorting does not depend on the order *)
Lemma str_leb_total a : forall b, str_leb a b = true \/ str_leb b a = true.
Proof.
  induction a as [|x a IH]; intros [|y b]; cbn; auto. rewrite (N.eqb_sym y x). destruct (x =? y)%N eqn:E; [apply IH|]. apply N.eqb_neq in E.
  rewrite !N.ltb_lt. lia.
Qed.
Lemma str_leb_antisym a : forall b, str_leb a b = true -> str_leb b a = true -> a = b.
Proof.
  induction a as [|x a IH]; intros [|y b]; cbn; try discriminate; auto. rewrite (N.eqb_sym y x). destruct (x =? y)%N eqn:E.
  - apply N.eqb_eq in E. subst. intros H1 H2. f_equal. apply IH; assumption.
  - rewrite !N.ltb_lt. intros. lia.
Qed.
Lemma str_leb_trans a : forall b c, str_leb a b = true -> str_leb b c = true -> str_leb a c = true.
Proof.
  induction a as [|x a IH]; intros [|y b] [|z c] H1 H2; cbn in *; try discriminate; auto.
  destruct (N.eq_dec x y) as [<-|Nxy].
  - rewrite N.eqb_refl in H1. destruct (x =? z)%N; [eapply IH; eauto|exact H2].
  - apply N.eqb_neq in Nxy. rewrite Nxy in H1. apply N.ltb_lt in H1. destruct (N.eq_dec y z) as [<-|Nyz].
    + rewrite Nxy. apply N.ltb_lt, H1.
    + apply N.eqb_neq in Nyz. rewrite Nyz in H2. apply N.ltb_lt in H2. assert (Nxz : (x =? z)%N = false) by (apply N.eqb_neq; lia). rewrite Nxz. apply N.ltb_lt. lia.
Qed.
Lemma insert_swap a b l : str_insert a (str_insert b l) = str_insert b (str_insert a l).
Proof.
  assert (Hab : str_insert a (str_insert b []) = str_insert b (str_insert a [])).
  { cbn. destruct (str_leb a b) eqn:E1, (str_leb b a) eqn:E2; try reflexivity.
    - rewrite (str_leb_antisym a b E1 E2). reflexivity.
    - destruct (str_leb_total a b); congruence. }
  induction l as [|c l IH]; [exact Hab|]. cbn [str_insert].
  destruct (str_leb b c) eqn:Eb, (str_leb a c) eqn:Ea; cbn [str_insert]; rewrite ?Ea, ?Eb.
  - destruct (str_leb a b) eqn:E1, (str_leb b a) eqn:E2; try reflexivity.
    + rewrite (str_leb_antisym a b E1 E2). reflexivity.
    + destruct (str_leb_total a b); congruence.
  - assert (E1 : str_leb a b = false) by (apply not_true_iff_false; intros X; apply not_true_iff_false in Ea; apply Ea; eapply str_leb_trans; eauto). rewrite E1. reflexivity.
  - assert (E1 : str_leb b a = false) by (apply not_true_iff_false; intros X; apply not_true_iff_false in Eb; apply Eb; eapply str_leb_trans; eauto). rewrite E1. reflexivity.
  - f_equal. exact IH.
Qed.
Lemma sorted_any_order l l' : Permutation l l' -> str_sorted l = str_sorted l'.
Proof. unfold str_sorted. induction 1 as [|a l l' _ IH|a b l|]; cbn [fold_right]; [reflexivity|rewrite IH; reflexivity|apply insert_swap|congruence]. Qed.

Section Orders.
  Context {A : Type} (U : unicode) (HU : unicode_ok U).
  Definition same_layer (P P' : layer (tensor A)) : Prop := forall r x, runtime_ok r -> rt_unicode r = U -> call_layer r P' x = call_layer r P x.
  Lemma rearrange_orders os os' p s : (forall n, orders_ok (os n)) -> (forall n, orders_ok (os' n)) -> NoDup (map fst s) ->
    match Rearrange (T := tensor A) U os p s, Rearrange U os' p s with
    | Ok P, Ok P' => same_layer P P'
    | Err ex, Err ex' => ex = ex'
    | _, _ => False
    end.
  Proof.
    intros Ho Ho' Hn. unfold Rearrange. destruct (check_kwargs [lit "self"; lit "pattern"] s) as [u|ex]; cbn [bind]; [|reflexivity].
    destruct (make_layer U os p (RStr s_rearrange) s) as [P|ex] eqn:E.
    - destruct (remade U HU os os' p _ s P Ho Ho' Hn E) as (P' & E' & H). rewrite E'. exact H.
    - destruct (make_layer U os' p (RStr s_rearrange) s) as [P'|ex'] eqn:E'.
      + destruct (remade U HU os' os p _ s P' Ho' Ho Hn E') as (P & E1 & _). congruence.
      + unfold make_layer in E, E'. apply bind_Err in E as [E|[q [_ E]]]; [|discriminate]. apply bind_Err in E' as [E'|[q [_ E']]]; [|discriminate].
        pose proof (all_dims_error U HU p (op_of (RStr s_rearrange)) (map fst s) os ex Ho E (os 0) 0 (Ho 0)) as F1.
        pose proof (all_dims_error U HU p (op_of (RStr s_rearrange)) (map fst s) os' ex' Ho' E' (os 0) 0 (Ho 0)) as F2. congruence.
  Qed.

  Definition same_mix (M M' : einmix (tensor A)) : Prop :=
    em_pattern M' = em_pattern M /\ em_weight_text M' = em_weight_text M /\ em_bias_text M' = em_bias_text M /\ em_sizes M' = em_sizes M /\
    em_weight M' = em_weight M /\ em_bias M' = em_bias M /\ em_fan_in M' = em_fan_in M /\ em_einsum M' = em_einsum M /\
    forall r lib iadd w b x, runtime_ok r -> rt_unicode r = U -> call_einmix r lib iadd M' w b x = call_einmix r lib iadd M w b x.
  Lemma einmix_orders os1 os1' os2 os2' pattern wt bt sizes : (forall n, orders_ok (os1 n)) -> (forall n, orders_ok (os1' n)) -> (forall n, orders_ok (os2 n)) -> (forall n, orders_ok (os2' n)) ->
    NoDup (map fst sizes) ->
    match EinMix (T := tensor A) U os1 os1' pattern wt bt sizes, EinMix U os2 os2' pattern wt bt sizes with
    | Ok M, Ok M' => same_mix M M'
    | Err ex, Err ex' => ex = ex'
    | _, _ => False
    end.
  Proof.
    intros H1 H1' H2 H2' Hn. unfold EinMix. destruct (check_kwargs _ sizes) as [u|ex]; cbn [bind]; [|reflexivity].
    unfold initialize_einmix. destruct (einmix_parse U pattern wt) as [v|ex]; cbn [bind]; [|reflexivity].
    destruct v as [[[[[l rr] pl] pr] pw] next].
    assert (Hpre : forall p s, pre_reshape l pl sizes = Some (p, s) -> NoDup (map fst s)).
    { intros p s E. unfold pre_reshape in E. destruct (any_composed pl); [|discriminate]. injection E as _ <-. clear -Hn. induction sizes as [|[k z] d IH]; [constructor|].
      inversion Hn as [|? ? N1 N2]; subst. cbn [filter]. destruct (str_mem k (flat_texts pl)); [|apply IH, N2]. cbn [map]. constructor; [|apply IH, N2].
      intros X. apply N1. apply in_map_iff in X as [y [E X]]. apply filter_In in X as [X _]. apply in_map_iff. exists y. auto. }
    assert (Hlayers : match rearrange_layers (T := tensor A) U os1 os1' (pre_reshape l pl sizes) (post_reshape rr pr), rearrange_layers U os2 os2' (pre_reshape l pl sizes) (post_reshape rr pr) with
      | Ok (P, Q), Ok (P', Q') => forall r x, runtime_ok r -> rt_unicode r = U -> call_option r P' x = call_option r P x /\ call_option r Q' x = call_option r Q x
      | Err ex, Err ex' => ex = ex'
      | _, _ => False
      end).
    { unfold rearrange_layers. destruct (pre_reshape l pl sizes) as [[p s]|] eqn:Ep.
      - pose proof (rearrange_orders os1 os2 p s H1 H2 (Hpre p s eq_refl)) as G1.
        destruct (Rearrange U os1 p s) as [P|ex], (Rearrange U os2 p s) as [P'|ex']; try contradiction; cbn [bind]; [|exact G1].
        destruct (post_reshape rr pr) as [q|]; cbn [bind].
        + pose proof (rearrange_orders os1' os2' q [] H1' H2' (NoDup_nil _)) as G2.
          destruct (Rearrange U os1' q []) as [Q|ex], (Rearrange U os2' q []) as [Q'|ex']; try contradiction; cbn [bind]; [|exact G2].
          intros r x Hr HrU. cbn [call_option]. split; [apply G1|apply G2]; assumption.
        + intros r x Hr HrU. cbn [call_option]. split; [apply G1; assumption|reflexivity].
      - cbn [bind]. destruct (post_reshape rr pr) as [q|]; cbn [bind].
        + pose proof (rearrange_orders os1' os2' q [] H1' H2' (NoDup_nil _)) as G2.
          destruct (Rearrange U os1' q []) as [Q|ex], (Rearrange U os2' q []) as [Q'|ex']; try contradiction; cbn [bind]; [|exact G2].
          intros r x Hr HrU. cbn [call_option]. split; [reflexivity|apply G2; assumption].
        + intros r x Hr HrU. cbn [call_option]. auto. }
    destruct (rearrange_layers U os1 os1' _ _) as [[P Q]|ex], (rearrange_layers U os2 os2' _ _) as [[P' Q']|ex']; try contradiction; cbn [bind]; [|exact Hlayers].
    destruct (einmix_check pl pr pw sizes) as [[]|ex]; cbn [bind]; [|reflexivity].
    destruct (weight_lengths pw sizes) as [wl|ex]; cbn [bind]; [|reflexivity].
    destruct (fan_in pr pw sizes) as [fi|ex]; cbn [bind]; [|reflexivity].
    destruct (bias_lengths U pr next bt sizes) as [bl|ex]; cbn [bind]; [|reflexivity].
    destruct (raise_if (fi =? 0)%Z ZeroDivisionError) as [[]|ex]; cbn [bind]; [|reflexivity].
    destruct (einsum_text pl pr pw) as [text|ex]; cbn [bind]; [|reflexivity].
    unfold same_mix. cbn [em_pattern em_weight_text em_bias_text em_sizes em_weight em_bias em_fan_in em_einsum]. repeat (split; [reflexivity|]).
    intros r lib iadd w b x Hr HrU. unfold call_einmix. cbn [em_pre em_post em_einsum]. rewrite (proj1 (Hlayers r x Hr HrU)).
    destruct (call_option r P x) as [x'|ex]; cbn [bind]; [|reflexivity]. destruct (lib text [x'; w]) as [y|ex]; cbn [bind]; [|reflexivity].
    destruct (match b with Some b0 => iadd y b0 | None => Ok y end) as [y2|ex]; cbn [bind]; [|reflexivity]. apply (Hlayers r y2 Hr HrU).
  Qed.
End Orders.

(** ** an addition that satisfies what is assumed *)
Section Reference.
  Context {A : Type} (add : A -> A -> A) (zero : A).
  Definition ref_iadd (t b : tensor A) : result (tensor A) :=
    let at_ u idx := match get u idx with Some v => v | None => zero end in
    Ok (mkT (shp t) (map (fun idx => add (at_ t idx) (at_ b (broadcast_index (shp b) idx))) (indices (shp t)))).
  Lemma ref_iadd_contract : iadd_contract add ref_iadd.
  Proof.
    intros t b Wt Wb _. eexists. split; [reflexivity|]. split; [unfold wf; cbn [dat shp]; rewrite map_length, indices_length; reflexivity|]. split; [reflexivity|].
    intros idx u v Hu Hv.
    assert (Hi : inb (shp t) idx = true) by (unfold get in Hu; destruct (inb (shp t) idx); [reflexivity|discriminate]).
    unfold get at 1. cbn [shp dat]. rewrite Hi. erewrite map_nth_error by (apply indices_nth; exact Hi). rewrite Hu, Hv. reflexivity.
  Qed.
End Reference.

(** ** what a layer is made from *)
Section Accepted.
  Context {T : Type} (U : unicode) (HU : unicode_ok U) (os os' : nat -> orders) (Hos : forall n, orders_ok (os n)) (Hos' : forall n, orders_ok (os' n)).
  Context (pattern wt : pystr) (bt : option pystr) (sizes : list (pystr * Z)) (Hns : NoDup (map fst sizes)).
  Lemma einmix_reads (M : einmix T) : EinMix U os os' pattern wt bt sizes = Ok M -> exists L R W, reads U pattern L R /\ written U wt W.
  Proof.
    intros H. unfold EinMix in H. apply bind_Ok in H as [u [_ H]]. unfold initialize_einmix in H. apply bind_Ok in H as [v [H _]]. unfold einmix_parse in H.
    destruct (str_split s_arrow pattern) as [|l [|r [|? ?]]] eqn:E; try discriminate.
    apply bind_Ok in H as [[p1 n1] [H1 H]]. apply bind_Ok in H as [[p2 n2] [H2 H]]. apply bind_Ok in H as [[p3 n3] [H3 _]].
    apply (parse_expression_iff U HU) in H1 as (L & WL & _). apply (parse_expression_iff U HU) in H2 as (R & WR & _). apply (parse_expression_iff U HU) in H3 as (W & WW & _).
    exists L, R, W. split; [|exact WW]. apply (reads_split U HU). exists l, r. auto.
  Qed.
  Lemma einmix_accepts : (forall L R, reads U pattern L R -> plain L /\ plain R) -> (forall W, written U wt W -> plain W) ->
    ((exists M : einmix T, EinMix U os os' pattern wt bt sizes = Ok M) <-> exists L R W, reads U pattern L R /\ written U wt W /\ mix_ok U bt sizes L R W).
  Proof.
    intros HP HW. split.
    - intros [M H]. destruct (einmix_reads M H) as (L & R & W & Hr & WW). exists L, R, W. split; [exact Hr|]. split; [exact WW|].
      destruct (HP _ _ Hr) as [PL PR]. apply (reads_split U HU) in Hr as (l & r & Hs & WL & WR).
      apply (md_ok _ _ _ _ _ _ _ _ _ _ _ _ _ (einmix_made U HU os os' Hos pattern wt l r bt sizes L R W Hs WL WR WW PL PR (HW _ WW) Hns M H)).
    - intros (L & R & W & Hr & WW & Hok). destruct (HP _ _ Hr) as [PL PR]. apply (reads_split U HU) in Hr as (l & r & Hs & WL & WR).
      eapply (einmix_exists U HU os os' Hos Hos' pattern wt l r bt sizes L R W); eauto.
  Qed.

  Context (L R W : expr) (Hr : reads U pattern L R) (WW : written U wt W) (PL : plain L) (PR : plain R) (PW : plain W).
  Context (M : einmix T) (HM : EinMix U os os' pattern wt bt sizes = Ok M).
  Lemma mix_shapes (len : pystr -> Z) : (forall s z, In (s, z) sizes -> len s = z) ->
    em_weight M = weight_dims len W /\
    em_fan_in M = fold_right Z.mul 1%Z (map len (filter (fun s => negb (str_mem s (keys R))) (keys W))) /\
    match bt with
    | None => em_bias M = None
    | Some text => exists B, written U text B /\ em_bias M = Some (bias_dims len B R)
    end.
  Proof.
    intros Hlen. apply (reads_split U HU) in Hr as (l & r & Hs & WL & WR).
    pose proof (einmix_made U HU os os' Hos pattern wt l r bt sizes L R W Hs WL WR WW PL PR PW Hns M HM) as Hm. pose proof (md_ok _ _ _ _ _ _ _ _ _ _ _ _ _ Hm) as Hok.
    assert (Hsz : forall s, In s (map fst sizes) -> size_of sizes s = len s) by (intros s Hin; symmetry; apply Hlen, size_in, Hin).
    split; [|split].
    - rewrite (md_weight _ _ _ _ _ _ _ _ _ _ _ _ _ Hm). apply map_ext_in. intros s Hin. apply Hsz, (mo_sized _ _ _ _ _ _ Hok), Hin.
    - rewrite (md_fan _ _ _ _ _ _ _ _ _ _ _ _ _ Hm). unfold fan_of.
      assert (E : map (size_of sizes) (filter (fun s => negb (str_mem s (keys R))) (keys W)) = map len (filter (fun s => negb (str_mem s (keys R))) (keys W))).
      { apply map_ext_in. intros s Hin. apply filter_In in Hin as [Hin _]. apply Hsz, (mo_sized _ _ _ _ _ _ Hok), Hin. }
      rewrite E. generalize (map len (filter (fun s => negb (str_mem s (keys R))) (keys W))) as zs. intros zs.
      rewrite <- (Z.mul_1_l (fold_right Z.mul 1%Z zs)). generalize 1%Z at 1 2 as a. induction zs as [|z zs IH]; intros a; cbn; [lia|]. rewrite IH. lia.
    - pose proof (md_bias _ _ _ _ _ _ _ _ _ _ _ _ _ Hm) as Hb. destruct bt as [text|]; [|exact Hb]. destruct Hb as (B & HB & E). exists B. split; [apply HB|].
      rewrite E. f_equal. apply map_ext. intros s. unfold bias_dim. destruct (str_mem s (keys B)) eqn:Em; [|reflexivity]. apply Hsz, (bf_sized _ _ _ _ _ HB), str_mem_In, Em.
  Qed.
  (** the bias can be added to a result in which every axis of the output is a dimension *)
  Lemma mix_broadcasts e len B text : bt = Some text -> written U text B ->
    broadcasts_to (map (fun s => if str_mem s (keys B) then len (LName s) else 1) (written_names R)) (map len (concat (right_groups e L R))).
  Proof.
    intros Ebt WB. apply (reads_split U HU) in Hr as (l & r & Hs & WL & WR).
    pose proof (einmix_made U HU os os' Hos pattern wt l r bt sizes L R W Hs WL WR WW PL PR PW Hns M HM) as Hm.
    pose proof (md_bias _ _ _ _ _ _ _ _ _ _ _ _ _ Hm) as Hb. rewrite Ebt in Hb. destruct Hb as (B' & HB & _).
    assert (B' = B) by (eapply (written_fun U false false text); [exact HU|apply (bf_written _ _ _ _ _ HB)|exact WB]). subst B'.
    assert (CR : concat (right_groups e L R) = alabs e (atoms R)).
    { apply concat_alabs; [apply (po_numbers _ _ _ (md_parse _ _ _ _ _ _ _ _ _ _ _ _ _ Hm))| |exact PR]. rewrite <- (po_dots _ _ _ (md_parse _ _ _ _ _ _ _ _ _ _ _ _ _ Hm)). apply dots_or. }
    rewrite CR. apply bias_broadcasts; [apply (po_numbers _ _ _ (md_parse _ _ _ _ _ _ _ _ _ _ _ _ _ Hm))|apply (written_ndots _ _ _ WR)|exact PR|apply (bf_after _ _ _ _ _ HB)].
  Qed.
End Accepted.
