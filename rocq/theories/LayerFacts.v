(** * Layers *)
From Verif Require Import Py Tensor ListFacts SpecSem SpecGrammar SpecPattern SpecOps Parsing Compile Recipe Ops Backends Api
  ParseFacts ParseFacts2 ParseFacts3 RecipeFacts InferFacts ApplyFacts FrontFacts FrontFacts2 FrontFacts3 MainFacts MainFacts2 MainFacts3 CallFacts ApiFacts ApiFacts6 Layers SpecLayers.

(** ** when a recipe can be made *)
Record preparable (U : unicode) (pattern : pystr) (op : operation) (names : list pystr) (L R : expr) (e : nat) : Prop := {
  pr_reads : reads U pattern L R;
  pr_role : exists w, op_role op = Some w /\ ident_ok w L R names;
  pr_dots : has_dots R = true -> has_dots L = true;
  pr_flat : no_grouped L;
  pr_names : forall s, In s names -> s <> ell_name /\ In s (keys L ++ keys R);
  pr_one : forall g, In g (left_groups e L) -> length (filter (unknown names) g) <= 1
}.

Lemma prepare_iff U o pattern op names n : unicode_ok U -> orders_ok o ->
  ((exists rec, prepare_recipe U o pattern op names n = Ok rec) <-> exists L R e, preparable U pattern op names L R e /\ rank_fits L n e).
Proof.
  intros HU Ho. rewrite prepare_split. split.
  - intros [rec H]. apply bind_Ok in H as [v [Hf Hb]].
    apply (frontend_iff U pattern op names n v HU) in Hf as [L [R [e [w [Hr [Hw [Hi [Hd [Hg [Hk ->]]]]]]]]]].
    rewrite front_value_eq in Hb. pose proof (front_weak U HU pattern L R e Hr Hd) as HW. rewrite backend_closed in Hb; auto.
    destruct (names_ok U _ (rids_of L R e) names) eqn:En; [|discriminate]. destruct (groups_ok names _) eqn:Eg; [|discriminate].
    pose proof (proj1 (names_ok_iff U pattern L R e names HU Hr Hd) En) as Hn.
    pose proof (proj1 (groups_ok_iff U HU L R pattern Hr names Hn _) Eg) as H1.
    exists L, R, e. split; [|exact Hk]. split; eauto.
  - intros (L & R & e & [Hr [w [Hw Hi]] Hd Hg Hn H1] & Hk).
    assert (Hf : frontend U pattern op names n = Ok (front_value L R e)) by (apply frontend_iff; auto; exists L, R, e, w; repeat split; auto).
    rewrite Hf. cbn [bind]. rewrite front_value_eq. pose proof (front_weak U HU pattern L R e Hr Hd) as HW. rewrite backend_closed; auto.
    rewrite (proj2 (names_ok_iff U pattern L R e names HU Hr Hd) Hn).
    rewrite (proj2 (groups_ok_iff U HU L R pattern Hr names Hn _) H1). eauto.
Qed.

(** the error when it cannot *)
Definition one_arrow (pattern : pystr) : bool := match str_split s_arrow pattern with [_; _] => true | _ => false end.
Lemma frontend_error U pattern op names n ex : unicode_ok U ->
  frontend U pattern op names n = Err ex -> ex = if one_arrow pattern then EinopsError else ValueError.
Proof.
  intros HU. unfold frontend, one_arrow. intros H.
  destruct (str_split s_arrow pattern) as [|l [|r [|? ?]]] eqn:E; try congruence.
  apply bind_Err in H as [H|[[lft k] [H1 H]]]; [eapply parse_expression_err; eauto|].
  apply bind_Err in H as [H|[[rght k'] [H2 H]]]; [eapply parse_expression_err; eauto|].
  apply bind_Err in H as [H|[u1 [H3 H]]]; [apply raise_if_Err in H as [_ H]; auto|].
  apply bind_Err in H as [H|[u2 [H4 H]]]; [apply raise_if_Err in H as [_ H]; auto|].
  apply bind_Err in H as [H|[u3 [H5 H]]]; [eapply check_identifiers_err; eauto|].
  apply parse_expression_iff in H1 as [L [HL E1]]; auto. apply parse_expression_iff in H2 as [R [HR E2]]; auto.
  assert (Ek : k = nbig (atoms L)) by (apply (f_equal snd) in E1; simpl in E1; auto). subst k.
  assert (El : lft = fst (compile 0 L)) by (rewrite <- E1; auto).
  assert (Er : rght = fst (compile (nbig (atoms L)) R)) by (rewrite <- E2; auto). subst lft rght.
  eapply resolve_err; eauto.
Qed.
Lemma prepare_error U o pattern op names n ex : unicode_ok U -> orders_ok o ->
  prepare_recipe U o pattern op names n = Err ex -> ex = if one_arrow pattern then EinopsError else ValueError.
Proof.
  intros HU Ho. rewrite prepare_split. intros H. apply bind_Err in H as [H|[v [Hf Hb]]]; [eapply frontend_error; eauto|].
  assert (E1 : one_arrow pattern = true).
  { unfold frontend in Hf. unfold one_arrow. destruct (str_split s_arrow pattern) as [|l [|r [|? ?]]]; try discriminate. reflexivity. }
  rewrite E1. apply (frontend_iff U pattern op names n v HU) in Hf as [L [R [e [w [Hr [Hw [Hi [Hd [Hg [Hk ->]]]]]]]]]].
  rewrite front_value_eq in Hb. pose proof (front_weak U HU pattern L R e Hr Hd) as HW. rewrite backend_closed in Hb; auto.
  destruct (names_ok U _ (rids_of L R e) names); [|congruence]. destruct (groups_ok names _); congruence.
Qed.

(** ** the number of dimensions under the ellipsis does not matter *)
Lemma atoms_labels_no_ell e e' l : existsb is_ell l = false -> forall k, atoms_labels true e k l = atoms_labels true e' k l.
Proof.
  induction l as [|a l IH]; intros H k; cbn [atoms_labels]; [reflexivity|]. cbn [existsb] in H. apply orb_false_iff in H as [H1 H2].
  rewrite (IH H2). f_equal. unfold atom_labels. rewrite stands_true, H1. reflexivity.
Qed.
Lemma one_unknown_any_rank names e e' ex : existsb grouped_ell ex = false -> forall k,
  (forall g, In g (groups true e k ex) -> length (filter (unknown names) g) <= 1) ->
  forall g, In g (groups true e' k ex) -> length (filter (unknown names) g) <= 1.
Proof.
  induction ex as [|i ex IH]; intros Hg k H g Hin; cbn [groups] in *; [contradiction|].
  cbn [existsb] in Hg. apply orb_false_iff in Hg as [Hg1 Hg2].
  apply in_app_or in Hin as [Hin|Hin]; [|apply (IH Hg2 (k + nbig (item_atoms i))); auto; intros g' Hg'; apply H, in_or_app; auto].
  destruct i as [a|l]; cbn [item_groups] in *.
  - destruct (stands_for_dots true a) eqn:Es.
    + apply in_map_iff in Hin as [x [<- _]]. cbn. destruct (unknown names x); cbn; lia.
    + apply H, in_or_app. left. destruct Hin as [<-|[]]. left. unfold atom_labels. rewrite Es. reflexivity.
  - apply H, in_or_app. left. destruct Hin as [<-|[]]. left. apply atoms_labels_no_ell. exact Hg1.
Qed.
Lemma preparable_any_rank U pattern op names L R e e' : has_dots L = true -> preparable U pattern op names L R e -> preparable U pattern op names L R e'.
Proof.
  intros Hd [H1 H2 H3 H4 H5 H6]. split; auto. unfold left_groups in *. rewrite Hd in *. apply (one_unknown_any_rank names e e'); auto.
Qed.

(** ** making a layer *)
Definition fitting_ranks (L : expr) : list nat := if has_dots L then map (fun e => length L - 1 + e) (seq 0 8) else [length L].
Lemma fitting_iff L n : In n (fitting_ranks L) <-> exists e, e < 8 /\ rank_fits L n e.
Proof.
  unfold fitting_ranks, rank_fits. destruct (has_dots L) eqn:E.
  - assert (0 < length L) by (destruct L; [discriminate E|cbn; lia]). rewrite in_map_iff. split.
    + intros [e [<- He]]. apply in_seq in He. exists e. lia.
    + intros [e [He H1]]. exists e. split; [lia|apply in_seq; lia].
  - cbn [In]. split; [intros [<-|[]]; exists 0; lia|intros (e & _ & H & _); auto].
Qed.
Lemma rank_fits_det L n e e' : rank_fits L n e -> rank_fits L n e' -> e = e'.
Proof. unfold rank_fits. destruct (has_dots L); lia. Qed.

Section Make.
  Context (U : unicode) (HU : unicode_ok U) (pattern : pystr) (op : operation) (names : list pystr).
  Definition prep os := fun ndim => let* rec := prepare_recipe U (os ndim) pattern op names ndim in Ok (ndim, rec).

  Lemma all_dims_read os L R : reads U pattern L R -> prepare_all_dims U os pattern op names = mapM (prep os) (fitting_ranks L).
  Proof.
    intros Hr. apply (reads_split U HU) in Hr as [l [rr [E [HL HR]]]]. unfold prepare_all_dims. rewrite E.
    rewrite (proj2 (parse_expression_iff U HU false false 0 l _) (ex_intro _ L (conj HL eq_refl))). cbn [bind].
    unfold dims_of_left, compile, fitting_ranks. cbn [p_composition p_has_ellipsis]. rewrite comps_length. reflexivity.
  Qed.

  (** success does not depend on iteration orders *)
  Lemma all_dims_ok os recipes : (forall n, orders_ok (os n)) -> prepare_all_dims U os pattern op names = Ok recipes ->
    exists L R, (forall e, preparable U pattern op names L R (if has_dots L then e else 0)) /\ mapM (prep os) (fitting_ranks L) = Ok recipes.
  Proof.
    intros Hos H. pose proof H as H0. unfold prepare_all_dims in H0.
    destruct (str_split s_arrow pattern) as [|l [|rr [|? ?]]] eqn:E; try discriminate.
    apply bind_Ok in H0 as [[lft k] [H1 H2]]. apply (parse_expression_iff U HU) in H1 as [L0 [HL0 E1]].
    assert (Hin : exists n, In n (dims_of_left lft)).
    { unfold dims_of_left. destruct (p_has_ellipsis lft); eexists; left; reflexivity. }
    destruct Hin as [n Hin]. destruct (mapM_Ok_in _ _ _ _ H2 Hin) as [[n' rec] [Hp _]].
    apply bind_Ok in Hp as [rec' [Hp Hx]].
    destruct (proj1 (prepare_iff U (os n) pattern op names n HU (Hos n)) (ex_intro _ rec' Hp)) as (L & R & e & Hpre & Hk).
    exists L, R. split.
    - intros e'. destruct (has_dots L) eqn:Ed; [eapply preparable_any_rank; eauto|].
      assert (e = 0) by (unfold rank_fits in Hk; rewrite Ed in Hk; lia). subst e. exact Hpre.
    - rewrite <- (all_dims_read os L R); [exact H|apply Hpre].
  Qed.
  Lemma all_dims_made os L R : (forall n, orders_ok (os n)) -> (forall e, preparable U pattern op names L R (if has_dots L then e else 0)) ->
    exists recipes, prepare_all_dims U os pattern op names = Ok recipes.
  Proof.
    intros Hos Hpre. rewrite (all_dims_read os L R) by apply (Hpre 0). apply mapM_exists. intros n Hn. apply fitting_iff in Hn as (e & He & Hk).
    destruct (proj2 (prepare_iff U (os n) pattern op names n HU (Hos n))) as [rec Hrec].
    - exists L, R, e. split; [|exact Hk]. specialize (Hpre e). destruct (has_dots L) eqn:Ed; [exact Hpre|].
      assert (e = 0) by (unfold rank_fits in Hk; rewrite Ed in Hk; lia). subst e. exact Hpre.
    - exists (n, rec). unfold prep. rewrite Hrec. reflexivity.
  Qed.
  Lemma all_dims_error os ex : (forall n, orders_ok (os n)) -> prepare_all_dims U os pattern op names = Err ex ->
    forall o n, orders_ok o -> prepare_recipe U o pattern op names n = Err ex.
  Proof.
    intros Hos H o n Ho. assert (Hex : ex = if one_arrow pattern then EinopsError else ValueError).
    { pose proof H as H0. unfold prepare_all_dims in H0. unfold one_arrow. destruct (str_split s_arrow pattern) as [|l [|rr [|? ?]]] eqn:E; try congruence.
      apply bind_Err in H0 as [H0|[[lft k] [H1 H2]]]; [eapply parse_expression_err; eauto|].
      apply mapM_Err_in in H2 as [m [_ H2]]. apply bind_Err in H2 as [H2|[rec [_ H2]]]; [|discriminate].
      apply prepare_error in H2; auto. unfold one_arrow in H2. rewrite E in H2. exact H2. }
    destruct (prepare_recipe U o pattern op names n) as [rec|ex'] eqn:Ep.
    - exfalso. destruct (proj1 (prepare_iff U o pattern op names n HU Ho) (ex_intro _ rec Ep)) as (L & R & e & Hpre & Hk).
      destruct (all_dims_made os L R Hos) as [recipes Hr]; [|congruence].
      intros e'. destruct (has_dots L) eqn:Ed; [eapply preparable_any_rank; eauto|].
      assert (e = 0) by (unfold rank_fits in Hk; rewrite Ed in Hk; lia). subst e. exact Hpre.
    - apply prepare_error in Ep; auto. congruence.
  Qed.

  Lemma prep_keys os l recipes : mapM (prep os) l = Ok recipes -> map fst recipes = l.
  Proof.
    intros H. apply mapM_Ok_Forall2 in H. induction H as [|n [m rec] l recipes Hp _ IH]; cbn; [reflexivity|].
    unfold prep in Hp. apply bind_Ok in Hp as [rec' [_ Hx]]. injection Hx as <- <-. rewrite IH. reflexivity.
  Qed.
  Lemma prep_get os l recipes n : mapM (prep os) l = Ok recipes ->
    dict_get Nat.eqb n recipes = if in_dec Nat.eq_dec n l then match prepare_recipe U (os n) pattern op names n with Ok rec => Some rec | Err _ => None end else None.
  Proof.
    intros H. apply mapM_Ok_Forall2 in H. induction H as [|m [m' rec] l recipes Hp _ IH]; [reflexivity|].
    unfold prep in Hp. apply bind_Ok in Hp as [rec' [Hp Hx]]. injection Hx as <- <-.
    cbn [dict_get]. destruct (n =? m) eqn:E.
    - apply Nat.eqb_eq in E. subst m. destruct (in_dec Nat.eq_dec n (n :: l)) as [_|X]; [|exfalso; apply X; left; reflexivity]. rewrite Hp. reflexivity.
    - rewrite IH. apply Nat.eqb_neq in E. destruct (in_dec Nat.eq_dec n l) as [Hi|Hi], (in_dec Nat.eq_dec n (m :: l)) as [Hi'|Hi']; auto.
      + exfalso. apply Hi'. right. exact Hi.
      + exfalso. destruct Hi' as [X|X]; [congruence|contradiction].
  Qed.
End Make.

(** ** operations that reduce nothing *)
Section NoReduction.
  Context {A : Type} (U : unicode) (HU : unicode_ok U) (o : orders) (Ho : orders_ok o) (lib : bool).
  Context (red1 red2 : tensor A -> list nat -> result (tensor A)).
  Context (add_ : tensor A -> nat -> list (nat * Z) -> result (tensor A)).
  Lemma core_call_ext pattern op sizes x : (forall t axes, red1 t axes = red2 t axes) ->
    core_call U o lib red1 add_ pattern op sizes x = core_call U o lib red2 add_ pattern op sizes x.
  Proof.
    intros H. unfold core_call. apply bind_ext. intros r _. apply bind_ext. intros k _. unfold steps.
    apply bind_ext. intros t1 _. apply bind_ext. intros t2 _. destruct (k_reduced k) as [|a l]; [reflexivity|]. rewrite H. reflexivity.
  Qed.
  Lemma core_call_nothing pattern op sizes x w : NoDup (map fst sizes) -> op_role op = Some w -> w <> Reducing ->
    core_call U o lib red1 add_ pattern op sizes x = core_call U o lib red2 add_ pattern op sizes x.
  Proof.
    intros Hn Hw Hne.
    destruct (frontend U pattern op (map fst sizes) (length (int_shape x))) as [v|ef] eqn:Ef.
    2:{ unfold core_call. rewrite !prepare_split, Ef. reflexivity. }
    apply frontend_iff in Ef as [L [R [e [w' [Hr [Hw' [Hi [Hd [Hg [Hk Hv]]]]]]]]]]; auto. assert (w' = w) by congruence. subst w'.
    unfold int_shape in Hk. rewrite map_length in Hk.
    rewrite (call_split U HU o Ho lib red1 add_ pattern op sizes x Hn L R e w) by auto.
    rewrite (call_split U HU o Ho lib red2 add_ pattern op sizes x Hn L R e w) by auto.
    destruct (names_ok U _ (rids_of L R e) (map fst sizes)); [|reflexivity]. destruct (groups_ok (map fst sizes) _); [|reflexivity].
    unfold after_front. apply bind_ext. intros [env need] _.
    destruct (odd_cases L R e) as [Hpl|[Hodd He]]; [|rewrite !(steps_odd U HU o lib _ add_ pattern); auto].
    unfold steps. apply bind_ext. intros t1 _. apply bind_ext. intros t2 _. cbn [closed_cooked k_reduced].
    assert (E : reduced_axes_of (map (map axis_of) (left_groups e L)) (rids_of L R e) = []).
    { unfold reduced_axes_of. destruct (filter _ _) as [|a l] eqn:E; auto. exfalso.
      assert (X : In a (filter (fun a => negb (axis_mem a (rids_of L R e))) (concat (map (map axis_of) (left_groups e L))))) by (rewrite E; left; auto).
      apply filter_In in X as [X Y]. apply negb_true_iff, axis_mem_false in Y. apply Y. apply (front_agree U HU pattern L R e Hr Hd a Hpl X).
      apply (none_missing L R e Hd w (map fst sizes)); auto. }
    rewrite E. reflexivity.
  Qed.
End NoReduction.

(** ** calling a layer *)
Section Call.
  Context {A : Type} (r : runtime A) (Hok : runtime_ok r).
  Notation U := (rt_unicode r).
  Notation be := (rt_backend r).
  (** how the layer reduces *)
  Definition layer_reduce (red : reduction (tensor A)) (t : tensor A) (axes : list nat) : result (tensor A) :=
    match rt_framework r with
    | Torch => match red with RStr s => torch_jit_reduce (rt_red r) t s axes | RCall _ => Err NotImplementedError end
    | _ => reduce_axes be t red axes
    end.
  Lemma apply_core pattern red sizes rec (x : tensor A) o : prepare_recipe U o pattern (op_of red) (map fst sizes) (length (shp x)) = Ok rec ->
    match rt_framework r with Torch => scriptable_apply r rec x red sizes | _ => apply_recipe int_ops be rec x red sizes end =
    core_call U o (rt_lib r) (layer_reduce red) (b_add_axes be) pattern (op_of red) sizes x.
  Proof.
    intros Hp. unfold core_call, int_shape. rewrite map_length, Hp. cbn [bind]. unfold layer_reduce, rt_backend, apply_recipe, scriptable_apply, rt_backend, with_framework.
    cbn [rt_lib rt_red rt_isf rt_num rt_framework].
    destruct (rt_framework r) eqn:Ef; try reflexivity.
    cbn [backend_of make_backend b_shape]. change (map Z.of_nat (shp x)) with (int_shape x). apply bind_ext. intros k _.
    unfold steps. cbn [backend_of make_backend b_reshape b_transpose b_add_axes b_reduce]. apply bind_ext. intros t1 _. apply bind_ext. intros t2 _.
    destruct (k_reduced k) as [|a l]; cbn [bind]; [|apply bind_ext; intros t3 _]; destruct (k_added k); reflexivity.
  Qed.

  Context (pattern : pystr) (red : reduction (tensor A)) (sizes : list (pystr * Z)) (Hn : NoDup (map fst sizes)).
  Lemma call_layer_spec os L x : (forall n, orders_ok (os n)) -> make_layer U os pattern red sizes = Ok L ->
    exists l rr, reads U pattern l rr /\
    call_layer r L x = if in_dec Nat.eq_dec (length (shp x)) (fitting_ranks l)
                       then core_call U (rt_orders r) (rt_lib r) (layer_reduce red) (b_add_axes be) pattern (op_of red) sizes x
                       else Err KeyError.
  Proof.
    intros Hos H. unfold make_layer in H. apply bind_Ok in H as [recipes [H E]]. injection E as <-.
    apply all_dims_ok in H as (l & rr & Hpre & H); [|apply Hok|exact Hos]. exists l, rr. split; [apply (Hpre 0)|].
    assert (G := prep_get U pattern (op_of red) (map fst sizes) os _ recipes (length (shp x)) H).
    destruct (in_dec Nat.eq_dec (length (shp x)) (fitting_ranks l)) as [Hi|Hi].
    - destruct (mapM_Ok_in _ _ _ _ H Hi) as [[n' rec] [Hp _]]. unfold prep in Hp. apply bind_Ok in Hp as [rec' [Hp _]]. rewrite Hp in G.
      rewrite (core_call_inv U (ro_unicode _ Hok) (rt_orders r) (os (length (shp x))) (ro_orders _ Hok) (Hos _) (rt_lib r) (layer_reduce red) (b_add_axes be) pattern (op_of red) sizes sizes x Hn (Permutation_refl _)).
      rewrite <- (apply_core pattern red sizes rec' x _ Hp). unfold call_layer, torch_apply, mixin_apply, recipe_for. cbn [ly_recipes ly_red ly_sizes].
      rewrite G. destruct (rt_framework r); reflexivity.
    - unfold call_layer, torch_apply, mixin_apply, recipe_for. cbn [ly_recipes]. rewrite G. destruct (rt_framework r); reflexivity.
  Qed.

  Hypothesis (Hres : check_kwargs reserved_kwargs sizes = Ok tt).

  Lemma layer_function x : op_role (op_of red) <> None -> torch_fits r red ->
    core_call U (rt_orders r) (rt_lib r) (layer_reduce red) (b_add_axes be) pattern (op_of red) sizes x = reduce r (One x) pattern red sizes.
  Proof.
    intros Hrole Ht. unfold reduce, rt_backend. rewrite api_core, Hres. cbn [bind].
    unfold torch_fits in Ht. unfold layer_reduce, rt_backend. destruct (rt_framework r) eqn:Ef; try reflexivity.
    destruct (Ht eq_refl) as (s & -> & Ha & Hb & Hf). destruct (op_role (op_of (@RStr (tensor A) s))) as [w|] eqn:Ew; [|contradiction].
    destruct w.
    - apply (core_call_nothing U (ro_unicode _ Hok) _ (ro_orders _ Hok) _ _ _ _ _ _ _ _ Rearranging); auto; discriminate.
    - apply (core_call_nothing U (ro_unicode _ Hok) _ (ro_orders _ Hok) _ _ _ _ _ _ _ _ Repeating); auto; discriminate.
    - apply core_call_ext. intros t axes. cbn [op_of op_role] in Ew.
      destruct (str_eqb s s_rearrange); [discriminate|]. destruct (str_eqb s s_repeat); [discriminate|].
      destruct (str_mem s reductions) eqn:Em; [|discriminate]. cbn [reduce_axes]. rewrite Em. cbn [negb raise_if bind].
      assert (E2 : (str_eqb s (lit "mean") && negb (b_is_float (backend_of (rt_lib r) (rt_red r) (rt_isf r) (rt_num r) Torch) t)) = false).
      { destruct (str_eqb s (lit "mean")) eqn:E; [|reflexivity]. apply str_eqb_eq in E. cbn. rewrite (Hf E). reflexivity. }
      rewrite E2. cbn [raise_if bind backend_of make_backend b_reduce]. unfold torch_jit_reduce, torch_reduce.
      destruct (str_mem s [lit "min"; lit "max"; lit "sum"; lit "mean"]); [reflexivity|].
      assert (E3 : str_mem s [lit "any"; lit "all"; lit "prod"] = str_eqb s (lit "prod")).
      { unfold str_mem. cbn [existsb]. destruct (str_eqb s (lit "any")) eqn:Ea; [apply str_eqb_eq in Ea; contradiction|].
        destruct (str_eqb s (lit "all")) eqn:Eb; [apply str_eqb_eq in Eb; contradiction|]. cbn. apply orb_false_r. }
      rewrite E3. reflexivity.
  Qed.

  Lemma made_role os L : (forall n, orders_ok (os n)) -> make_layer U os pattern red sizes = Ok L -> op_role (op_of red) <> None.
  Proof.
    intros Hos H. unfold make_layer in H. apply bind_Ok in H as [recipes [H E]].
    apply all_dims_ok in H as (l & rr & Hpre & H); [|apply Hok|exact Hos]. destruct (Hpre 0) as [_ [w [Hw _]] _ _ _ _]. congruence.
  Qed.
  Lemma layer_like_function os L x : (forall n, orders_ok (os n)) -> make_layer U os pattern red sizes = Ok L -> torch_fits r red ->
    forall l rr, reads U pattern l rr ->
    (forall e, rank_fits l (length (shp x)) e -> e < 8 -> call_layer r L x = reduce r (One x) pattern red sizes) /\
    ((forall e, rank_fits l (length (shp x)) e -> 8 <= e) -> call_layer r L x = Err KeyError).
  Proof.
    intros Hos H Ht l rr Hr. destruct (call_layer_spec os L x Hos H) as (l' & rr' & Hr' & E).
    destruct (reads_fun U (ro_unicode _ Hok) pattern l rr l' rr' Hr Hr') as [<- <-]. rewrite E. split.
    - intros e Hk He. destruct (in_dec Nat.eq_dec (length (shp x)) (fitting_ranks l)) as [Hi|Hi]; [|exfalso; apply Hi, fitting_iff; eauto].
      apply layer_function; [eapply made_role; eauto|exact Ht].
    - intros Hk. destruct (in_dec Nat.eq_dec (length (shp x)) (fitting_ranks l)) as [Hi|Hi]; [|reflexivity].
      apply fitting_iff in Hi as (e & He & Hi). specialize (Hk e Hi). lia.
  Qed.
  Lemma layer_error os ex : (forall n, orders_ok (os n)) -> make_layer U os pattern red sizes = Err ex ->
    forall x, reduce r (One x) pattern red sizes = Err ex.
  Proof.
    intros Hos H x. unfold make_layer in H. apply bind_Err in H as [H|[recipes [_ H]]]; [|discriminate].
    unfold reduce, rt_backend. rewrite api_core, Hres. cbn [bind]. unfold core_call.
    rewrite (all_dims_error U (ro_unicode _ Hok) pattern (op_of red) (map fst sizes) os ex Hos H _ _ (ro_orders _ Hok)). reflexivity.
  Qed.
End Call.

(** ** saving *)
Section Save.
  Context {A : Type} (U : unicode) (HU : unicode_ok U).
  Lemma remade os os' pattern (red : reduction (tensor A)) sizes L : (forall n, orders_ok (os n)) -> (forall n, orders_ok (os' n)) ->
    NoDup (map fst sizes) -> make_layer U os pattern red sizes = Ok L ->
    exists L', make_layer U os' pattern red sizes = Ok L' /\
      forall r x, runtime_ok r -> rt_unicode r = U -> call_layer r L' x = call_layer r L x.
  Proof.
    intros Ho Ho' Hn H. pose proof H as H0. unfold make_layer in H0. apply bind_Ok in H0 as [recipes [H0 _]].
    apply all_dims_ok in H0 as (l & rr & Hpre & _); [|exact HU|exact Ho].
    destruct (all_dims_made U HU pattern (op_of red) (map fst sizes) os' l rr Ho' Hpre) as [recipes' E'].
    exists (mkLayer pattern red sizes recipes'). assert (H' : make_layer U os' pattern red sizes = Ok (mkLayer pattern red sizes recipes')) by (unfold make_layer; rewrite E'; reflexivity).
    split; [exact H'|]. intros r x Hok <-.
    destruct (call_layer_spec r Hok pattern red sizes Hn os L x Ho H) as (l1 & r1 & Hr1 & ->).
    destruct (call_layer_spec r Hok pattern red sizes Hn os' _ x Ho' H') as (l2 & r2 & Hr2 & ->).
    destruct (reads_fun (rt_unicode r) (ro_unicode _ Hok) pattern l1 r1 l2 r2 Hr1 Hr2) as [<- <-]. reflexivity.
  Qed.
  Lemma made_fields os pattern (red : reduction (tensor A)) sizes L : make_layer U os pattern red sizes = Ok L ->
    ly_pattern L = pattern /\ ly_red L = red /\ ly_sizes L = sizes.
  Proof. intros H. apply bind_Ok in H as [recipes [_ E]]. injection E as <-. auto. Qed.

  Lemma rearrange_saved os os' pattern sizes (L : layer (tensor A)) : (forall n, orders_ok (os n)) -> (forall n, orders_ok (os' n)) ->
    NoDup (map fst sizes) -> Rearrange U os pattern sizes = Ok L ->
    exists L', Rearrange_setstate U os' (Rearrange_getstate L) = Ok L' /\ Rearrange_getstate L' = Rearrange_getstate L /\
      forall r x, runtime_ok r -> rt_unicode r = U -> call_layer r L' x = call_layer r L x.
  Proof.
    intros Ho Ho' Hn H. unfold Rearrange in H. apply bind_Ok in H as [[] [Hk H]]. destruct (made_fields _ _ _ _ _ H) as (E1 & E2 & E3).
    destruct (remade os os' pattern _ sizes L Ho Ho' Hn H) as (L' & H' & Hc). destruct (made_fields _ _ _ _ _ H') as (E1' & E2' & E3').
    exists L'. unfold Rearrange_setstate, Rearrange_getstate, Rearrange. cbn [fst snd]. rewrite E1, E3, E1', E3', Hk. auto.
  Qed.
  Lemma reduce_saved os os' pattern (red : reduction (tensor A)) sizes L : (forall n, orders_ok (os n)) -> (forall n, orders_ok (os' n)) ->
    NoDup (map fst sizes) -> Reduce U os pattern red sizes = Ok L ->
    exists L', Reduce_setstate U os' (Reduce_getstate L) = Ok L' /\ Reduce_getstate L' = Reduce_getstate L /\
      forall r x, runtime_ok r -> rt_unicode r = U -> call_layer r L' x = call_layer r L x.
  Proof.
    intros Ho Ho' Hn H. unfold Reduce in H. apply bind_Ok in H as [[] [Hk H]]. destruct (made_fields _ _ _ _ _ H) as (E1 & E2 & E3).
    destruct (remade os os' pattern red sizes L Ho Ho' Hn H) as (L' & H' & Hc). destruct (made_fields _ _ _ _ _ H') as (E1' & E2' & E3').
    exists L'. unfold Reduce_setstate, Reduce_getstate, Reduce. rewrite E1, E2, E3, E1', E2', E3', Hk. auto.
  Qed.
End Save.

Section Config.
  Context {A : Type} (U : unicode) (HU : unicode_ok U).
  Notation V := (config_value (tensor A)).
  Lemma dict_set_fresh (k : pystr) (v : V) d : ~ In k (map fst d) -> dict_set str_eqb k v d = d ++ [(k, v)].
  Proof.
    induction d as [|[k' v'] d IH]; intros H; cbn; [reflexivity|]. destruct (str_eqb k k') eqn:E.
    - apply str_eqb_eq in E. exfalso. apply H. left. symmetry. exact E.
    - rewrite IH; [reflexivity|]. intros X. apply H. right. exact X.
  Qed.
  Lemma merge_fresh sizes : forall (d : list (pystr * V)), NoDup (map fst sizes) -> (forall k, In k (map fst sizes) -> ~ In k (map fst d)) ->
    merge d sizes = d ++ map (fun '(k, z) => (k, VInt z)) sizes.
  Proof.
    induction sizes as [|[k z] sizes IH]; intros d Hn Hd; cbn; [symmetry; apply app_nil_r|]. inversion Hn as [|? ? H1 H2]; subst.
    rewrite dict_set_fresh by (apply Hd; left; reflexivity). fold (merge (d ++ [(k, VInt z)]) sizes). rewrite IH; [|exact H2|].
    - rewrite <- app_assoc. reflexivity.
    - intros k' Hk' X. rewrite map_app in X. apply in_app_or in X as [X|X]; [eapply Hd; [right|]; eauto|]. destruct X as [<-|[]]. contradiction.
  Qed.
  Lemma rest_sizes (d : list (pystr * V)) sizes params : (forall k, In k (map fst sizes) -> ~ In k params) -> (forall kv, In kv d -> In (fst kv) params) ->
    rest_of (d ++ map (fun '(k, z) => (k, VInt z)) sizes) params = Ok sizes.
  Proof.
    intros H Hd. unfold rest_of. rewrite filter_app.
    assert (E1 : filter (fun '(k, _) => negb (str_mem k params)) d = []).
    { clear H. induction d as [|[k v] d IH]; cbn; [reflexivity|]. rewrite (proj2 (str_mem_In k params)) by (apply (Hd (k, v)); left; reflexivity). cbn. apply IH. intros kv Hkv. apply Hd. right. exact Hkv. }
    rewrite E1. cbn [app]. clear E1 Hd. induction sizes as [|[k z] sizes IH]; cbn; [reflexivity|].
    destruct (str_mem k params) eqn:E; cbn.
    - exfalso. apply str_mem_In in E. apply (H k); [left; reflexivity|exact E].
    - rewrite IH; [reflexivity|]. intros k' Hk'. apply H. right. exact Hk'.
  Qed.
  Lemma kwargs_free reserved (sizes : list (pystr * Z)) : check_kwargs reserved sizes = Ok tt -> forall k, In k (map fst sizes) -> ~ In k reserved.
  Proof.
    intros H k Hk Hr. apply in_map_iff in Hk as [[k' z] [<- Hk]]. unfold check_kwargs in H. apply raise_if_Ok in H.
    assert (X : existsb (fun '(k, _) => str_mem k reserved) sizes = true) by (apply existsb_exists; exists (k', z); split; [exact Hk|apply str_mem_In, Hr]). congruence.
  Qed.

  Lemma rearrange_config_saved os os' pattern sizes (L : layer (tensor A)) : (forall n, orders_ok (os n)) -> (forall n, orders_ok (os' n)) ->
    NoDup (map fst sizes) -> Rearrange U os pattern sizes = Ok L ->
    exists L', Rearrange_from_config U os' (Rearrange_config L) = Ok L' /\
      forall r x, runtime_ok r -> rt_unicode r = U -> call_layer r L' x = call_layer r L x.
  Proof.
    intros Ho Ho' Hn H. pose proof H as H0. unfold Rearrange in H. apply bind_Ok in H as [[] [Hk H]]. destruct (made_fields U _ _ _ _ _ H) as (E1 & E2 & E3).
    destruct (rearrange_saved U HU os os' pattern sizes L Ho Ho' Hn H0) as (L' & H' & _ & Hc). exists L'. split; [|exact Hc].
    pose proof (kwargs_free _ _ Hk) as Hf. unfold Rearrange_from_config, Rearrange_config. rewrite E1, E3, merge_fresh; [|exact Hn|].
    2:{ intros k Hk' [X|[]]. apply (Hf k Hk'). right. left. exact X. }
    change (dict_get str_eqb (lit "pattern") ([(lit "pattern", VStr pattern)] ++ map (fun '(k, z) => (k, VInt z)) sizes)) with (Some (@VStr (tensor A) pattern)).
    cbv iota. rewrite rest_sizes.
    - cbn [bind]. unfold Rearrange_setstate, Rearrange_getstate in H'. cbn [fst snd] in H'. rewrite E1, E3 in H'. exact H'.
    - intros k Hk' [X|[]]. apply (Hf k Hk'). right. left. exact X.
    - intros kv [<-|[]]. left. reflexivity.
  Qed.
  Lemma reduce_config_saved os os' pattern (red : reduction (tensor A)) sizes L : (forall n, orders_ok (os n)) -> (forall n, orders_ok (os' n)) ->
    NoDup (map fst sizes) -> Reduce U os pattern red sizes = Ok L ->
    exists L', Reduce_from_config U os' (Reduce_config L) = Ok L' /\
      forall r x, runtime_ok r -> rt_unicode r = U -> call_layer r L' x = call_layer r L x.
  Proof.
    intros Ho Ho' Hn H. pose proof H as H0. unfold Reduce in H. apply bind_Ok in H as [[] [Hk H]]. destruct (made_fields U _ _ _ _ _ H) as (E1 & E2 & E3).
    destruct (reduce_saved U HU os os' pattern red sizes L Ho Ho' Hn H0) as (L' & H' & _ & Hc). exists L'. split; [|exact Hc].
    pose proof (kwargs_free _ _ Hk) as Hf. unfold Reduce_from_config, Reduce_config. rewrite E1, E2, E3, merge_fresh; [|exact Hn|].
    2:{ intros k Hk' [X|[X|[]]]; apply (Hf k Hk'); right; [left|right; left]; exact X. }
    set (c := [(lit "pattern", VStr pattern); (lit "reduction", red_value red)] ++ map (fun '(k, z) => (k, VInt z)) sizes).
    assert (G1 : dict_get str_eqb (lit "pattern") c = Some (VStr pattern)) by reflexivity.
    assert (G2 : dict_get str_eqb (lit "reduction") c = Some (red_value red)) by reflexivity. rewrite G1, G2.
    assert (G3 : match red_value red with VStr s => Ok (RStr s) | VCall f => Ok (RCall f) | VInt _ | VNone => Err TypeError end = Ok red) by (destruct red; reflexivity).
    rewrite G3. cbn [bind]. unfold c. rewrite rest_sizes.
    - cbn [bind]. unfold Reduce_setstate, Reduce_getstate in H'. rewrite E1, E2, E3 in H'. exact H'.
    - intros k Hk' [X|[X|[]]]; apply (Hf k Hk'); right; [left|right; left]; exact X.
    - intros kv [<-|[<-|[]]]; [left|right; left]; reflexivity.
  Qed.
End Config.

(** ** the properties *)
Section Statements.
  Context {A : Type} (r : runtime A) (Hok : runtime_ok r).
  Notation U := (rt_unicode r).
  Lemma reserved_ok (sizes : list (pystr * Z)) : no_reserved sizes -> check_kwargs reserved_kwargs sizes = Ok tt.
  Proof. intros H. apply check_kwargs_iff. exact H. Qed.

  Lemma make_like_function os pattern red sizes L : (forall n, orders_ok (os n)) -> NoDup (map fst sizes) -> no_reserved sizes ->
    torch_fits r red -> make_layer U os pattern red sizes = Ok L -> like_function r L pattern (fun x => reduce r (One x) pattern red sizes).
  Proof.
    intros Hos Hn Hr Ht H. destruct (call_layer_spec r Hok pattern red sizes Hn os L (mkT [] []) Hos H) as (l & rr & Hrd & _).
    exists l, rr. split; [exact Hrd|]. intros x. apply (layer_like_function r Hok pattern red sizes Hn (reserved_ok _ Hr) os L x Hos H Ht l rr Hrd).
  Qed.
  Lemma rearrange_layer os pattern sizes L : (forall n, orders_ok (os n)) -> NoDup (map fst sizes) -> no_reserved sizes ->
    Rearrange U os pattern sizes = Ok L -> like_function r L pattern (fun x => rearrange r (One x) pattern sizes).
  Proof.
    intros Hos Hn Hr H. unfold Rearrange in H. apply bind_Ok in H as [u [_ H]].
    apply (make_like_function os pattern (RStr s_rearrange) sizes L Hos Hn Hr); [|exact H].
    intros _. exists s_rearrange. repeat split; try discriminate.
  Qed.
  Lemma reduce_layer os pattern red sizes L : (forall n, orders_ok (os n)) -> NoDup (map fst sizes) -> no_reserved sizes ->
    torch_fits r red -> Reduce U os pattern red sizes = Ok L -> like_function r L pattern (fun x => reduce r (One x) pattern red sizes).
  Proof.
    intros Hos Hn Hr Ht H. unfold Reduce in H. apply bind_Ok in H as [u [_ H]]. eapply make_like_function; eauto.
  Qed.
  Lemma self_ok (sizes : list (pystr * Z)) reserved : no_reserved sizes -> ~ In (lit "self") (map fst sizes) ->
    incl reserved (lit "self" :: reserved_kwargs) -> check_kwargs reserved sizes = Ok tt.
  Proof.
    intros Hr Hs Hi. unfold check_kwargs, raise_if. destruct (existsb _ sizes) eqn:E; [|reflexivity]. exfalso.
    apply existsb_exists in E as [[k z] [Hk E]]. apply str_mem_In, Hi in E. apply (in_map fst) in Hk. cbn in Hk.
    destruct E as [<-|E]; [contradiction|]. apply reserved_ok in Hr. exact (kwargs_free _ _ Hr k Hk E).
  Qed.
  Lemma rearrange_layer_error os pattern sizes ex : (forall n, orders_ok (os n)) -> no_reserved sizes -> ~ In (lit "self") (map fst sizes) ->
    @Rearrange (tensor A) U os pattern sizes = Err ex -> forall x, rearrange r (One x) pattern sizes = Err ex.
  Proof.
    intros Hos Hr Hs H x. unfold Rearrange in H. rewrite self_ok in H; auto.
    - apply (layer_error r Hok pattern (RStr s_rearrange) sizes (reserved_ok _ Hr) os ex Hos H).
    - intros k [<-|[<-|[]]]; [left|right; right; left]; reflexivity.
  Qed.
  Lemma reduce_layer_error os pattern red sizes ex : (forall n, orders_ok (os n)) -> no_reserved sizes -> ~ In (lit "self") (map fst sizes) ->
    Reduce U os pattern red sizes = Err ex -> forall x, reduce r (One x) pattern red sizes = Err ex.
  Proof.
    intros Hos Hr Hs H x. unfold Reduce in H. rewrite self_ok in H; auto.
    - apply (layer_error r Hok pattern red sizes (reserved_ok _ Hr) os ex Hos H).
    - intros k [<-|[<-|[<-|[]]]]; [left|right; right; left|right; right; right; left]; reflexivity.
  Qed.
End Statements.
