(** * A call from pattern to result, in terms of labels *)
From Verif Require Import Py Tensor ListFacts TensorFacts SpecSem SpecGrammar SpecPattern SpecOps Parsing Compile Recipe Ops Backends StepFacts ParseFacts ParseFacts2 ParseFacts3 RecipeFacts InferFacts ApplyFacts FrontFacts FrontFacts2 FrontFacts3.

(** ** from axes to labels *)
Section Transport.
  Context (Lam : list label).
  Context (Hinj : forall a b, In a Lam -> In b Lam -> axis_of a = axis_of b -> a = b).

  Definition lift {B} (d : B) (ix : label -> B) (a : axis) : B :=
    match find (fun l => axis_eqb (axis_of l) a) Lam with Some l => ix l | None => d end.

  Lemma lift_of {B} (d : B) ix l : In l Lam -> lift d ix (axis_of l) = ix l.
  Proof.
    intros Hl. unfold lift. destruct (find _ Lam) as [m|] eqn:E.
    - apply find_some in E as [Hm E]. apply axis_eqb_eq in E. rewrite (Hinj m l); auto.
    - exfalso. eapply find_none in E; [|exact Hl]. simpl in E. rewrite axis_eqb_refl in E. discriminate.
  Qed.

  Context {A : Type}.
  Implicit Types (t : tensor A).
  Context (lenL : label -> nat) (lenA : axis -> nat).
  Context (Hlen : forall l, In l Lam -> lenL l = lenA (axis_of l)).

  Lemma map_len ns : incl ns Lam -> map lenA (map axis_of ns) = map lenL ns.
  Proof. intros H. rewrite map_map. apply map_ext_in. intros l Hl. symmetry; apply Hlen; auto. Qed.
  Lemma gshape_len gs : incl (concat gs) Lam -> gshape lenA (map (map axis_of) gs) = gshape lenL gs.
  Proof.
    intros H. unfold gshape. rewrite map_map. apply map_ext_in. intros g Hg. rewrite map_len; auto.
    intros l Hl. apply H, in_concat. eauto.
  Qed.
  Lemma gindex_len gs (ixA : axis -> nat) (ixL : label -> nat) :
    incl (concat gs) Lam -> (forall l, In l (concat gs) -> ixA (axis_of l) = ixL l) ->
    gindex lenA ixA (map (map axis_of) gs) = gindex lenL ixL gs.
  Proof.
    intros H Hi. unfold gindex. rewrite map_map. apply map_ext_in. intros g Hg.
    assert (Hg' : forall l, In l g -> In l (concat gs)) by (intros l Hl; apply in_concat; eauto).
    rewrite map_len by (intros l Hl; auto). f_equal. rewrite map_map. apply map_ext_in. auto.
  Qed.
  Lemma within_len ns (ixA : axis -> nat) (ixL : label -> nat) :
    incl ns Lam -> (forall l, In l ns -> ixA (axis_of l) = ixL l) ->
    (within lenA ixA (map axis_of ns) <-> within lenL ixL ns).
  Proof.
    intros H Hi. unfold within. split.
    - intros W l Hl. rewrite Hlen by auto. rewrite <- Hi by auto. apply W, in_map; auto.
    - intros W a Ha. apply in_map_iff in Ha as [l [<- Hl]]. rewrite Hi, <- Hlen by auto. auto.
  Qed.

  Lemma repr_to_labels t ns fA fL :
    incl ns Lam -> (forall ix, within lenL ix ns -> fA (lift 0 ix) = fL ix) ->
    repr t (map axis_of ns) lenA fA -> repr t ns lenL fL.
  Proof.
    intros H Hf [Hw [Hs Hg]]. repeat split; auto.
    - rewrite Hs. apply map_len; auto.
    - intros ix Hi. rewrite <- Hf by auto. rewrite <- Hg.
      + f_equal. rewrite map_map. apply map_ext_in. intros l Hl. rewrite lift_of; auto.
      + eapply within_len; eauto. intros l Hl. rewrite lift_of; auto.
  Qed.

  Lemma grepr_to_labels t gs fA fL :
    incl (concat gs) Lam -> (forall ix, within lenL ix (concat gs) -> fA (lift 0 ix) = fL ix) ->
    grepr t (map (map axis_of) gs) lenA fA -> grepr t gs lenL fL.
  Proof.
    intros H Hf [Hw [Hs Hg]]. repeat split; auto.
    - rewrite Hs. apply gshape_len; auto.
    - intros ix Hi. rewrite <- Hf by auto. rewrite <- Hg.
      + f_equal. symmetry. apply gindex_len; auto. intros l Hl. rewrite lift_of; auto.
      + rewrite <- concat_map. eapply within_len; eauto. intros l Hl. rewrite lift_of; auto.
  Qed.

  Lemma repr_to_axes t ns fL :
    incl ns Lam -> repr t ns lenL fL -> repr t (map axis_of ns) lenA (fun ix => fL (fun l => ix (axis_of l))).
  Proof.
    intros H [Hw [Hs Hg]]. repeat split; auto.
    - rewrite Hs. symmetry. apply map_len; auto.
    - intros ix Hi. rewrite <- Hg.
      + rewrite map_map. reflexivity.
      + eapply within_len; eauto.
  Qed.
End Transport.

(** a function of an index assignment that only looks at [Lam] *)
Definition looks_at {B} (Lam : list label) (f : (label -> nat) -> B) : Prop :=
  forall ix ix', (forall l, In l Lam -> ix l = ix' l) -> f ix = f ix'.

(** ** the whole call *)
Definition core_call {A} (U : unicode) (o : orders) (lib : bool)
    (reduce_ : tensor A -> list nat -> result (tensor A))
    (add_ : tensor A -> nat -> list (nat * Z) -> result (tensor A))
    (pattern : pystr) (op : operation) (sizes : list (pystr * Z)) (x : tensor A) : result (tensor A) :=
  let* r := prepare_recipe U o pattern op (map fst sizes) (length (int_shape x)) in
  let* k := reconstruct int_ops r (int_shape x) sizes in
  steps lib reduce_ add_ k x.

(** ** pieces *)
Lemma groups_count U pattern L R e n : reads U pattern L R -> no_grouped L -> rank_fits L n e ->
  length (left_groups e L) = n.
Proof.
  intros Hr Hg Hn. unfold rank_fits in Hn. unfold left_groups. destruct (has_dots L) eqn:E.
  - pose proof (groups_length e 0 L) as H. pose proof (one_ell L None (keys_NoDup_L U pattern L R Hr) (has_dots_key _ E)) as H1.
    rewrite (Hg E) in H1. destruct H1 as [_ H1]. rewrite H1 in H. lia.
  - destruct Hn as [Hn _]. rewrite groups_length_plain; auto.
Qed.

Lemma flat_map_same {B C} (f : B -> list C) l a b x :
  NoDup (flat_map f l) -> In a l -> In b l -> In x (f a) -> In x (f b) -> a = b.
Proof.
  induction l as [|c l IH]; intros Hn Ha Hb Hxa Hxb; [destruct Ha|].
  cbn [flat_map] in Hn. apply NoDup_app_iff in Hn as [H1 [H2 H3]].
  destruct Ha as [->|Ha], Hb as [->|Hb]; auto.
  - exfalso. apply (H3 x); auto. apply in_flat_map; eauto.
  - exfalso. apply (H3 x); auto. apply in_flat_map; eauto.
Qed.

Lemma no_grouped_iff L : NoDup (keys L) -> (no_grouped L <-> (has_dots L = true -> ~ grouped_dots L)).
Proof.
  intros Hn. unfold no_grouped. split; intros H Hd; specialize (H Hd).
  - intros [l [Hl Ha]]. assert (existsb grouped_ell L = true); [|congruence].
    apply existsb_exists. exists (Group l); split; auto. simpl. apply existsb_exists. exists ADots; auto.
  - destruct (existsb grouped_ell L) eqn:E; auto. exfalso. apply H.
    apply existsb_exists in E as [i [Hi E]]. destruct i as [a|l]; [discriminate|]. simpl in E.
    apply existsb_exists in E as [a [Ha E]]. unfold has_dots in Hd. apply existsb_exists in Hd as [b [Hb Hdb]].
    destruct b; try discriminate.
    assert (Haa : In a (atoms L)) by (unfold atoms; apply in_flat_map; exists (Group l); auto).
    assert (a = ADots) as ->.
    { apply (flat_map_same atom_key (atoms L) a ADots ell_name); auto; [apply is_ell_key; auto|left; auto]. }
    exists l; auto.
Qed.

Lemma written_legal U au ad s e x : written_as U au ad s e -> In x (keys e) -> x = ell_name \/ legal_name U au x.
Proof.
  intros [ts [_ [He _]]] Hx. apply structured_by in He. unfold keys in Hx.
  apply in_flat_map in Hx as [a [Ha Hx]]. destruct (struct_atoms U _ _ _ He a Ha) as [w Hw].
  inversion Hw; subst; simpl in Hx.
  - destruct Hx as [<-|[]]. left; auto.
  - destruct Hx.
  - destruct Hx as [<-|[]]. auto.
Qed.

Lemma ell_not_identifier U : unicode_ok U -> isidentifier U ell_name = false.
Proof. intros HU. unfold ell_name, isidentifier. destruct (uo_ell U HU) as [_ [_ [F _]]]. rewrite F. reflexivity. Qed.

Lemma check_name_legal U x : legal_name U false x -> x <> ell_name -> check_axis_name U false x = true.
Proof.
  intros [->|[H1 [_ [[H2 H3]|[H2 _]]]]] Hne; [congruence| |discriminate].
  unfold check_axis_name. rewrite H1. simpl. apply N.eqb_neq in H2, H3. rewrite H2, H3. reflexivity.
Qed.

Lemma check_name_identifier U au x : check_axis_name U au x = true -> isidentifier U x = true.
Proof. unfold check_axis_name. destruct (isidentifier U x); auto. Qed.

Lemma names_ok_iff U pattern L R e names : unicode_ok U -> reads U pattern L R ->
  (has_dots R = true -> has_dots L = true) ->
  (names_ok U (map (map axis_of) (left_groups e L)) (rids_of L R e) names = true <->
   forall s, In s names -> s <> ell_name /\ In s (keys L ++ keys R)).
Proof.
  intros HU Hr Hd. unfold names_ok. rewrite forallb_forall. split; intros H s Hs; specialize (H s Hs).
  - apply andb_true_iff in H as [H1 H2]. apply check_name_identifier in H1.
    assert (Hp : plain_name U s) by (right; auto).
    split; [intros ->; rewrite ell_not_identifier in H1 by auto; discriminate|].
    apply axis_mem_In, in_app_or in H2 as [H2|H2]; apply in_or_app.
    + apply (in_left L R e Hd) in H2. destruct H2 as [[H2 _]|[_ [_ [i [_ E]]]]]; auto.
      exfalso. eapply (name_not_ell_axis U); eauto.
    + right. unfold rids_of in H2. destruct (has_dots L && has_dots R).
      * apply in_strip in H2 as [H2 _]. apply in_update in H2 as [H2|H2].
        -- apply in_ell_axes in H2 as [i [_ E]]. exfalso. eapply (name_not_ell_axis U); eauto.
        -- apply in_ids in H2; auto.
      * apply in_ids in H2; auto.
  - destruct H as [Hne Hk]. apply andb_true_iff; split.
    + apply check_name_legal; auto. destruct Hr as [l [r [_ [Hl Hrr]]]].
      apply in_app_or in Hk as [Hk|Hk]; [destruct (written_legal U false false l L s Hl Hk)|destruct (written_legal U false false r R s Hrr Hk)]; auto; congruence.
    + apply axis_mem_In, in_or_app. apply in_app_or in Hk as [Hk|Hk].
      * left. apply (in_left L R e Hd). left; auto.
      * right. unfold rids_of. destruct (has_dots L && has_dots R).
        -- apply in_strip. split; [apply in_update; right; apply in_ids; auto|].
           intros E. inversion E; subst. apply Hne; reflexivity.
        -- apply in_ids; auto.
Qed.

Section Known.
  Context (U : unicode) (HU : unicode_ok U) (L R : expr) (pattern : pystr) (Hr : reads U pattern L R).
  Context (names : list pystr) (Hn : forall s, In s names -> s <> ell_name /\ In s (keys L ++ keys R)).

  Lemma known_label l : is_known names (axis_of l) = negb (unknown names l).
  Proof.
    destruct l as [s|i|k n]; simpl; auto; [rewrite negb_involutive; auto|].
    destruct (str_mem (ellipsis_str ++ str_of_nat i) names) eqn:E; auto. exfalso.
    apply str_mem_In in E. apply Hn in E as [_ E].
    assert (plain_name U (ellipsis_str ++ str_of_nat i)).
    { apply in_app_or in E as [E|E]; [eapply key_plain_L|eapply key_plain_R]; eauto. }
    eapply (name_not_ell_axis U _ i); eauto.
  Qed.

  Lemma knowns_labels g : knowns names (map axis_of g) = map axis_of (filter (fun a => negb (unknown names a)) g).
  Proof. unfold knowns. apply filter_map_in. intros b _. apply known_label. Qed.
  Lemma unknowns_labels g : unknowns names (map axis_of g) = map axis_of (filter (unknown names) g).
  Proof. unfold unknowns. apply filter_map_in. intros b _. rewrite known_label, negb_involutive. reflexivity. Qed.

  Lemma groups_ok_iff gs : groups_ok names (map (map axis_of) gs) = true <->
    forall g, In g gs -> length (filter (unknown names) g) <= 1.
  Proof.
    unfold groups_ok. rewrite forallb_forall. split.
    - intros H g Hg. specialize (H (map axis_of g) (in_map _ _ _ Hg)). apply Nat.leb_le in H.
      fold (unknowns names (map axis_of g)) in H. rewrite unknowns_labels, map_length in H. auto.
    - intros H g Hg. apply in_map_iff in Hg as [g' [<- Hg]]. apply Nat.leb_le.
      fold (unknowns names (map axis_of g')). rewrite unknowns_labels, map_length. auto.
  Qed.
End Known.

(** ** negative lengths are rejected *)
Definition rejects {A} (bad : Z -> Prop) (add_ : tensor A -> nat -> list (nat * Z) -> result (tensor A)) : Prop :=
  forall t n added p z y, In (p, z) added -> bad z -> NoDup (map fst added) -> add_ t n added <> Ok y.

Lemma upd_loop {A} (added : list (nat * Z)) (x x' : tensor A) (r r' : list Z) :
  foldM (fun '(x, repeats) '(p, l) =>
               let* x := t_expand_dims x p in
               let* repeats := list_upd repeats p l in
               Ok (x, repeats)) added (x, r) = Ok (x', r') ->
  NoDup (map fst added) ->
  (forall p z, In (p, z) added -> nth_error r' p = Some z) /\
  (forall j, ~ In j (map fst added) -> nth_error r' j = nth_error r j).
Proof.
  revert x r; induction added as [|[p z] added IH]; intros x r H Hn; cbn [foldM] in H.
  - inversion H; subst. split; [intros p z []|auto].
  - apply bind_Ok in H as [[x1 r1] [H1 H2]]. apply bind_Ok in H1 as [x2 [_ H1]]. apply bind_Ok in H1 as [r2 [Hu H1]].
    inversion H1; subst; clear H1. cbn [map fst] in Hn. inversion Hn; subst.
    destruct (IH _ _ H2 H3) as [I1 I2]. split.
    + intros q w [E|Hq]; [inversion E; subst|auto]. rewrite I2 by auto. rewrite (list_upd_nth _ _ _ _ q Hu).
      rewrite Nat.eqb_refl. reflexivity.
    + intros j Hj. simpl in Hj. rewrite I2 by tauto. rewrite (list_upd_nth _ _ _ _ j Hu).
      replace (j =? p) with false by (symmetry; apply Nat.eqb_neq; intuition). reflexivity.
Qed.

Lemma upd_loop2 (added : list (nat * Z)) (r r' : list Z) :
  foldM (fun s '(p, l) => list_upd s p l) added r = Ok r' ->
  NoDup (map fst added) ->
  (forall p z, In (p, z) added -> nth_error r' p = Some z) /\
  (forall j, ~ In j (map fst added) -> nth_error r' j = nth_error r j).
Proof.
  revert r; induction added as [|[p z] added IH]; intros r H Hn; cbn [foldM] in H.
  - inversion H; subst. split; [intros p z []|auto].
  - apply bind_Ok in H as [r1 [Hu H2]]. cbn [map fst] in Hn. inversion Hn; subst.
    destruct (IH _ H2 H3) as [I1 I2]. split.
    + intros q w [E|Hq]; [inversion E; subst|auto]. rewrite I2 by auto. rewrite (list_upd_nth _ _ _ _ q Hu).
      rewrite Nat.eqb_refl. reflexivity.
    + intros j Hj. simpl in Hj. rewrite I2 by tauto. rewrite (list_upd_nth _ _ _ _ j Hu).
      replace (j =? p) with false by (symmetry; apply Nat.eqb_neq; intuition). reflexivity.
Qed.

Lemma all_nonneg_In l z : all_nonneg l = true -> In z l -> (0 <= z)%Z.
Proof. unfold all_nonneg. rewrite forallb_forall. intros H Hz. apply Z.leb_le; auto. Qed.

Lemma tile_rejects {A} : rejects (fun z => (z < 0)%Z) (@tile_add_axes A).
Proof.
  intros t n added p z y Hin Hz Hn H. unfold tile_add_axes in H. apply bind_Ok in H as [[x r] [H1 H2]].
  apply upd_loop in H1 as [H1 _]; auto. apply H1 in Hin. apply nth_error_In in Hin. unfold t_tile in H2.
  destruct (length r =? length (shp x)); [|discriminate]. simpl in H2.
  destruct (all_nonneg r) eqn:E; [|discriminate]. pose proof (all_nonneg_In _ _ E Hin). lia.
Qed.

Lemma expand_shape_In s r s' z : expand_shape s r = Ok s' -> In z r -> (-1 <= z)%Z.
Proof.
  revert r s'; induction s as [|d s IH]; intros [|w r] s' H Hz; simpl in H; try discriminate; [destruct Hz|].
  apply bind_Ok in H as [n [H1 H]]. apply bind_Ok in H as [ns [H2 _]]. destruct Hz as [->|Hz]; [|eauto].
  unfold expand_dim in H1. destruct (z =? -1)%Z eqn:E; [apply Z.eqb_eq in E; lia|].
  destruct (z <? 0)%Z eqn:E2; [discriminate|]. apply Z.ltb_ge in E2. lia.
Qed.

Lemma expand_rejects {A} : rejects (fun z => (z < -1)%Z) (@expand_add_axes A).
Proof.
  intros t n added p z y Hin Hz Hn H. unfold expand_add_axes in H. apply bind_Ok in H as [[x r] [H1 H2]].
  apply upd_loop in H1 as [H1 _]; auto. apply H1 in Hin. apply nth_error_In in Hin. unfold t_expand in H2.
  apply bind_Ok in H2 as [s' [H2 _]]. pose proof (expand_shape_In _ _ _ _ H2 Hin). lia.
Qed.

Lemma aa_rejects {A} : rejects (fun z => (z < 0)%Z) (@aa_add A).
Proof.
  intros t n added p z y Hin Hz Hn H. unfold aa_add in H. apply bind_Ok in H as [x [H1 H2]].
  apply bind_Ok in H2 as [r [H2 H3]]. apply upd_loop2 in H2 as [H2 _]; auto. apply H2 in Hin. apply nth_error_In in Hin.
  unfold t_broadcast_to in H3. destruct (all_nonneg r) eqn:E; [|discriminate]. pose proof (all_nonneg_In _ _ E Hin). lia.
Qed.

Lemma prodZ_pos l : (forall z, In z l -> (0 < z)%Z) -> (0 < prodZ l)%Z.
Proof.
  induction l as [|z l IH]; intros H; simpl; [lia|]. apply Z.mul_pos_pos; [apply H; left; auto|].
  apply IH. intros; apply H; right; auto.
Qed.
Lemma prodZ_nonneg l : (forall z, In z l -> (0 <= z)%Z) -> (0 <= prodZ l)%Z.
Proof.
  induction l as [|z l IH]; intros H; simpl; [lia|]. apply Z.mul_nonneg_nonneg; [apply H; left; auto|].
  apply IH. intros; apply H; right; auto.
Qed.
Lemma prodn_pos l n : prodn l <> 0 -> In n l -> 0 < n.
Proof.
  induction l as [|m l IH]; intros H Hn; [destruct Hn|]. rewrite prodn_cons in H. destruct Hn as [->|Hn]; [|apply IH; auto; intros E; rewrite E in H; lia].
  destruct n; simpl in H; lia.
Qed.

Lemma is_infer_neg lib d : is_infer lib d = true -> (d < 0)%Z.
Proof. unfold is_infer. destruct lib; intros H; [apply Z.ltb_lt in H|apply Z.eqb_eq in H]; lia. Qed.

(** a shape with a negative entry is accepted only if all other entries are positive *)
Lemma reshape_negative {A} lib (x y : tensor A) s1 z s2 :
  t_reshape lib x (s1 ++ z :: s2) = Ok y -> (z < 0)%Z -> forall w, In w (s1 ++ s2) -> (0 < w)%Z.
Proof.
  intros H Hz w Hw. unfold t_reshape, resolve_shape in H. apply bind_Ok in H as [s' [H _]].
  replace (all_nonneg (s1 ++ z :: s2)) with false in H.
  2:{ symmetry. destruct (all_nonneg (s1 ++ z :: s2)) eqn:E; auto.
      pose proof (all_nonneg_In _ z E). rewrite in_app_iff in H0. specialize (H0 (or_intror (or_introl eq_refl))). lia. }
  destruct (length (filter (is_infer lib) (s1 ++ z :: s2)) =? 1) eqn:E1; [|discriminate].
  destruct (all_nonneg (filter (fun d => negb (is_infer lib d)) (s1 ++ z :: s2))) eqn:E2; [|discriminate].
  cbn [andb] in H. destruct (prodn (to_nats (filter (fun d => negb (is_infer lib d)) (s1 ++ z :: s2))) =? 0) eqn:E3; [discriminate|].
  apply Nat.eqb_eq in E1. apply Nat.eqb_neq in E3.
  assert (Hi : is_infer lib z = true).
  { destruct (is_infer lib z) eqn:E; auto. exfalso.
    assert (In z (filter (fun d => negb (is_infer lib d)) (s1 ++ z :: s2))).
    { apply filter_In. rewrite E. split; auto. apply in_or_app; right; left; auto. }
    pose proof (all_nonneg_In _ _ E2 H0). lia. }
  rewrite filter_app in E1. simpl in E1. rewrite Hi in E1. rewrite app_length in E1. simpl in E1.
  assert (Hnw : is_infer lib w = false).
  { destruct (is_infer lib w) eqn:E; auto. exfalso. apply in_app_or in Hw as [Hw|Hw].
    - assert (In w (filter (is_infer lib) s1)) by (apply filter_In; auto). destruct (filter (is_infer lib) s1); [auto|simpl in E1; lia].
    - assert (In w (filter (is_infer lib) s2)) by (apply filter_In; auto). destruct (filter (is_infer lib) s2); [auto|simpl in E1; lia]. }
  assert (Hin : In w (filter (fun d => negb (is_infer lib d)) (s1 ++ z :: s2))).
  { apply filter_In. rewrite Hnw. split; auto. apply in_app_or in Hw as [Hw|Hw]; apply in_or_app; [left|right; right]; auto. }
  assert (0 < Z.to_nat w) by (eapply prodn_pos; [exact E3|]; unfold to_nats; apply in_map; auto). lia.
Qed.

Lemma fitsZ_in env shape lcomp g : fitsZ env shape lcomp -> In g lcomp -> In (prodZ (map env g)) shape.
Proof.
  induction 1 as [|n h shape lcomp Hn _ IH]; intros Hg; [destruct Hg|]. destruct Hg as [->|Hg]; [left; auto|right; auto].
Qed.

Lemma NoDup_filter_fst {B} (p : nat * B -> bool) l k : NoDup (map fst (filter p (enumerate_from k l))).
Proof.
  assert (G : forall m, NoDup (map fst m) -> NoDup (map fst (filter p m))).
  { induction m as [|q m IH]; intros H; simpl; [constructor|]. simpl in H. inversion H; subst. destruct (p q); simpl; auto.
    constructor; auto. intros X. apply H2. apply in_map_iff in X as [r [<- X]]. apply filter_In in X as [X _]. apply in_map; auto. }
  apply G. rewrite enumerate_from_fst. apply seq_NoDup.
Qed.

Section Negative.
  Context {A : Type} (lib : bool) (reduce_ : tensor A -> list nat -> result (tensor A))
          (add_ : tensor A -> nat -> list (nat * Z) -> result (tensor A)).
  Context (o : orders) (lcomp rcomp : list (list axis)) (lids rids : list axis).
  Context (Ho : orders_ok o) (env : axis -> Z).
  Notation k := (closed_cooked o lcomp rcomp rids env (existsb (fun g => negb (length g =? 1)) lcomp)).

  Lemma steps_perm_ok x y : steps lib reduce_ add_ k x = Ok y -> NoDup (order_after_of lcomp rcomp rids).
  Proof.
    intros H. unfold steps in H. apply bind_Ok in H as [t1 [_ H]]. apply bind_Ok in H as [t2 [H _]].
    unfold closed_cooked in H. cbn [k_reorder] in H.
    destruct (list_eq_dec _ _ _) as [E|E].
    - apply (NoDup_map_inv (pos_in (concat lcomp))). rewrite E. apply seq_NoDup.
    - unfold t_transpose in H. destruct (is_permutation _ _) eqn:Ep; [|discriminate].
      unfold is_permutation in Ep. apply andb_true_iff in Ep as [_ Ep]. apply nat_nodupb_NoDup in Ep.
      apply NoDup_map_inv in Ep. auto.
  Qed.

  Context (HR : resolved lcomp rcomp lids rids).

  Lemma steps_left_nonneg x y : fitsZ env (map Z.of_nat (shp x)) lcomp ->
    steps lib reduce_ add_ k x = Ok y -> forall a, In a (concat lcomp) -> (0 <= env a)%Z.
  Proof.
    intros Hf H a Ha. destruct (Z.lt_ge_cases (env a) 0) as [Hz|Hz]; [exfalso|auto].
    unfold steps in H. apply bind_Ok in H as [t1 [H _]].
    apply in_concat in Ha as [g [Hg Ha]].
    pose proof (fitsZ_in _ _ _ _ Hf Hg) as Hp. apply in_map_iff in Hp as [n [Hn _]].
    unfold closed_cooked in H. cbn [k_init] in H.
    assert (En : existsb (fun g => negb (length g =? 1)) lcomp = true).
    { apply existsb_exists. exists g; split; auto. destruct g as [|b [|c g]]; [destruct Ha| |reflexivity].
      exfalso. destruct Ha as [->|[]]. simpl in Hn. lia. }
    rewrite En in H.
    rewrite <- (Permutation_length (order_after_perm _ _ _ _ HR)) in H. unfold all_axes in H. rewrite map_app in H.
    rewrite <- (map_length env (concat lcomp)) in H. rewrite firstn_exact in H.
    pose proof (wr_ndl _ _ _ _ (rs_weak _ _ _ _ HR)) as Hnd.
    assert (Hac : In a (concat lcomp)) by (apply in_concat; eauto).
    apply in_split in Hac as [l1 [l2 E]]. rewrite E in H. rewrite map_app in H. cbn [map] in H.
    pose proof (reshape_negative _ _ _ _ _ _ H Hz) as Hpos.
    apply in_split in Ha as [g1 [g2 Eg]].
    assert (Hrest : forall b, In b (g1 ++ g2) -> (0 < env b)%Z).
    { intros b Hb. apply Hpos. rewrite <- map_app. apply in_map.
      assert (Hbc : In b (concat lcomp)).
      { apply in_concat. exists g; split; auto. rewrite Eg. apply in_app_or in Hb as [Hb|Hb]; apply in_or_app; [left|right; right]; auto. }
      rewrite E in Hbc. apply in_app_or in Hbc as [Hbc|[<-|Hbc]]; apply in_or_app; auto.
      exfalso. assert (NoDup g) by (apply (NoDup_concat_in lcomp); auto). rewrite Eg in H0. apply NoDup_remove_2 in H0. auto. }
    rewrite Eg in Hn. rewrite map_app, prodZ_app in Hn. cbn [map] in Hn.
    change (prodZ (env a :: map env g2)) with (env a * prodZ (map env g2))%Z in Hn.
    assert (P1 : (0 < prodZ (map env g1))%Z).
    { apply prodZ_pos. intros z Hin. apply in_map_iff in Hin as [b [<- Hb]]. apply Hrest, in_or_app; auto. }
    assert (P2 : (0 < prodZ (map env g2))%Z).
    { apply prodZ_pos. intros z Hin. apply in_map_iff in Hin as [b [<- Hb]]. apply Hrest, in_or_app; auto. }
    assert (P3 : (prodZ (map env g1) * (env a * prodZ (map env g2)) < 0)%Z).
    { apply Z.mul_pos_neg; auto. apply Z.mul_neg_pos; auto. }
    lia.
  Qed.

  Lemma steps_new_good bad x y : rejects bad add_ -> steps lib reduce_ add_ k x = Ok y ->
    forall a, In a (concat rcomp) -> ~ In a (concat lcomp) -> ~ bad (env a).
  Proof.
    intros Hrej H a Ha Hna Hbad. unfold steps in H.
    apply bind_Ok in H as [t1 [_ H]]. apply bind_Ok in H as [t2 [_ H]]. apply bind_Ok in H as [t3 [_ H]].
    apply bind_Ok in H as [t4 [H _]].
    assert (Hin : exists p, In (p, env a) (k_added k)).
    { unfold closed_cooked. cbn [k_added]. unfold added_of, enumerate.
      apply In_nth_error in Ha as [p Hp]. exists p. apply in_map_iff. exists (p, a); split; auto.
      apply filter_In. split; [|apply negb_true_iff, axis_mem_false; auto].
      apply nth_error_In with (n := p). rewrite enumerate_from_nth, Hp. reflexivity. }
    destruct Hin as [p Hin].
    assert (Hnd : NoDup (map fst (k_added k))).
    { unfold closed_cooked. cbn [k_added]. rewrite map_map.
      rewrite (map_ext _ fst) by (intros [? ?]; reflexivity). apply NoDup_filter_fst. }
    destruct (k_added k) as [|q l] eqn:Ek; [destruct Hin|].
    eapply Hrej; eauto.
  Qed.
End Negative.
