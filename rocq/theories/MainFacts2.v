(** * Calls: soundness, completeness, errors *)
From Verif Require Import Py Tensor ListFacts TensorFacts SpecSem SpecGrammar SpecPattern SpecOps Parsing Compile Recipe Ops Backends StepFacts ParseFacts ParseFacts2 ParseFacts3 RecipeFacts InferFacts ApplyFacts FrontFacts FrontFacts2 FrontFacts3 MainFacts.

Lemma dict_get_In {V} (d : list (pystr * V)) s : In s (map fst d) -> exists v, dict_get str_eqb s d = Some v /\ In (s, v) d.
Proof.
  induction d as [|[k v] d IH]; intros H; [destruct H|]. simpl. destruct (str_eqb s k) eqn:E.
  - apply str_eqb_eq in E; subst. exists v; auto.
  - destruct H as [H|H]; [simpl in H; subst; rewrite str_eqb_refl in E; discriminate|].
    destruct (IH H) as [v' [H1 H2]]. exists v'; auto.
Qed.
Lemma dict_get_NoDup {V} (d : list (pystr * V)) s v : NoDup (map fst d) -> In (s, v) d -> dict_get str_eqb s d = Some v.
Proof.
  induction d as [|[k w] d IH]; intros Hn H; [destruct H|]. simpl in *. inversion Hn; subst. destruct H as [E|H].
  - inversion E; subst. rewrite str_eqb_refl. reflexivity.
  - destruct (str_eqb s k) eqn:E; auto. apply str_eqb_eq in E; subst. exfalso. apply H2.
    apply (in_map fst) in H. exact H.
Qed.

Lemma filter_all {B} (p : B -> bool) l : (forall b, In b l -> p b = true) -> filter p l = l.
Proof.
  induction l as [|b l IH]; intros H; [reflexivity|]. simpl. rewrite H by (left; auto). f_equal. apply IH. intros; apply H; right; auto.
Qed.

Lemma prodn_prodZ l : prodZ (map Z.of_nat l) = Z.of_nat (prodn l).
Proof.
  induction l as [|n l IH]; [reflexivity|]. rewrite prodn_cons, Nat2Z.inj_mul. cbn [map].
  change (prodZ (Z.of_nat n :: map Z.of_nat l)) with (Z.of_nat n * prodZ (map Z.of_nat l))%Z. rewrite IH. reflexivity.
Qed.

Lemma prod_labels Lam (env : axis -> Z) (len : label -> nat) g :
  (forall l, In l Lam -> env (axis_of l) = Z.of_nat (len l)) -> incl g Lam ->
  prodZ (map env (map axis_of g)) = Z.of_nat (prodn (map len g)).
Proof.
  intros H Hg. rewrite <- prodn_prodZ. f_equal. rewrite !map_map. apply map_ext_in. auto.
Qed.

Lemma fitsZ_labels Lam (env : axis -> Z) (len : label -> nat) gs shape :
  (forall l, In l Lam -> env (axis_of l) = Z.of_nat (len l)) -> incl (concat gs) Lam ->
  (fitsZ env (map Z.of_nat shape) (map (map axis_of) gs) <-> gshape len gs = shape).
Proof.
  intros H. unfold fitsZ. revert shape; induction gs as [|g gs IH]; intros shape Hi.
  - split; [intros X; inversion X; destruct shape; [reflexivity|discriminate]|intros <-; constructor].
  - simpl in Hi. assert (H1 : incl g Lam) by (intros a Ha; apply Hi, in_or_app; auto).
    assert (H2 : incl (concat gs) Lam) by (intros a Ha; apply Hi, in_or_app; auto).
    split.
    + intros X. destruct shape as [|n shape]; [inversion X|]. cbn [map] in X. inversion X; subst.
      rewrite (prod_labels Lam env len) in * by auto. unfold gshape in *. simpl. f_equal; [lia|]. apply IH; auto.
    + intros <-. unfold gshape. cbn [map]. constructor; [symmetry; apply (prod_labels Lam); auto|].
      apply IH; auto.
Qed.

Lemma call_NoDup_keys U w pattern sizes shape L R e len : call_ok U w pattern sizes shape L R e len -> NoDup (keys L).
Proof. intros H. eapply keys_NoDup_L. eapply co_reads; eauto. Qed.

(** new axes of the right side *)
Lemma new_label U pattern w names L R e l : reads U pattern L R ->
  (has_dots R = true -> has_dots L = true) -> ident_ok w L R names ->
  In l (concat (right_groups e L R)) -> ~ In l (concat (left_groups e L)) ->
  (exists s, l = LName s /\ In s names) \/ (exists k n, l = LNum k n).
Proof.
  intros Hr Hd Hi Hin Hout. unfold right_groups, left_groups in *. rewrite concat_groups in *.
  apply in_atoms_labels in Hin; [|apply (side_R L R Hd)].
  rewrite in_atoms_labels in Hout by apply (side_L L R Hd).
  destruct l as [s|i|k n]; simpl in *.
  - left. exists s; split; auto. destruct Hin as [H1 H2]. fold (keys R) in H1. fold (keys L) in Hout.
    assert (Hs : ~ In s (keys L)) by tauto.
    destruct w; simpl in Hi.
    + exfalso. apply Hs. apply Hi; auto.
    + destruct Hi as [_ [_ Hi]]. apply Hi in H1. apply in_app_or in H1 as [H1|H1]; tauto.
    + exfalso. apply Hs. apply Hi; auto.
  - exfalso. apply Hout. destruct Hin as [H1 [H2 H3]]. repeat split; auto. apply has_dots_key; auto.
  - right; eauto.
Qed.

Lemma name_label U pattern L R e s : reads U pattern L R ->
  (has_dots R = true -> has_dots L = true) -> s <> ell_name -> In s (keys L ++ keys R) ->
  In (LName s) (concat (left_groups e L) ++ concat (right_groups e L R)).
Proof.
  intros Hr Hd Hne Hs. apply in_or_app. unfold right_groups, left_groups. rewrite !concat_groups.
  apply in_app_or in Hs as [Hs|Hs]; [left|right].
  - apply in_atoms_labels; [apply (side_L L R Hd)|]. simpl. auto.
  - apply in_atoms_labels; [apply (side_R L R Hd)|]. simpl. auto.
Qed.

Section Core.
  Context {A : Type} (U : unicode) (HU : unicode_ok U) (o : orders) (Ho : orders_ok o) (lib : bool).
  Context (reduce_ : tensor A -> list nat -> result (tensor A)).
  Context (add_ : tensor A -> nat -> list (nat * Z) -> result (tensor A)).
  Context (pattern : pystr) (op : operation) (sizes : list (pystr * Z)) (x : tensor A).
  Context (Hns : NoDup (map fst sizes)).

  Notation call := (core_call U o lib reduce_ add_ pattern op sizes x).

  (** what happens once the pattern is understood *)
  Definition after_front (L R : expr) (e : nat) : result (tensor A) :=
    let lcomp := map (map axis_of) (left_groups e L) in
    let rcomp := map (map axis_of) (right_groups e L R) in
    let* (env, need) := ref_infer (map fst sizes) (int_shape x) lcomp (env0 sizes, false) in
    steps lib reduce_ add_ (closed_cooked o lcomp rcomp (rids_of L R e) env need) x.

  Lemma call_split L R e w : reads U pattern L R -> op_role op = Some w -> ident_ok w L R (map fst sizes) ->
    (has_dots R = true -> has_dots L = true) -> no_grouped L -> rank_fits L (length (shp x)) e ->
    call = if names_ok U (map (map axis_of) (left_groups e L)) (rids_of L R e) (map fst sizes)
           then if groups_ok (map fst sizes) (map (map axis_of) (left_groups e L))
                then after_front L R e else Err EinopsError
           else Err EinopsError.
  Proof.
    intros Hr Hw Hi Hd Hg Hk. unfold core_call. rewrite prepare_split.
    assert (Hf : frontend U pattern op (map fst sizes) (length (int_shape x)) = Ok (front_value L R e)).
    { apply frontend_iff; auto. exists L, R, e, w. repeat split; auto. unfold int_shape. rewrite map_length; auto. }
    rewrite Hf. cbn [bind]. rewrite front_value_eq.
    pose proof (front_weak U HU pattern L R e Hr Hd) as HW.
    unfold lids_of in HW. fold (lids_of L e) in HW.
    rewrite backend_closed; auto.
    destruct (names_ok U _ (rids_of L R e) (map fst sizes)) eqn:En; [|reflexivity].
    destruct (groups_ok (map fst sizes) _) eqn:Eg; [|reflexivity]. cbn [bind].
    rewrite (reconstruct_closed o _ _ (lids_of L e)); auto.
    - unfold after_front. rewrite bind_assoc. apply bind_ext. intros [env need] _. reflexivity.
    - intros s Hs. unfold names_ok in En. rewrite forallb_forall in En. specialize (En s Hs).
      apply andb_true_iff in En as [_ En]. apply axis_mem_In, in_app_or in En. exact En.
    - unfold int_shape. rewrite !map_length. symmetry. eapply groups_count; eauto.
  Qed.

  (** the lengths found agree with [len] *)
  Lemma env_agrees L R e w len env need : reads U pattern L R -> ident_ok w L R (map fst sizes) ->
    (has_dots R = true -> has_dots L = true) -> no_grouped L -> rank_fits L (length (shp x)) e ->
    groups_ok (map fst sizes) (map (map axis_of) (left_groups e L)) = true ->
    fits len (left_groups e L) (right_groups e L R) (shp x) sizes ->
    ref_infer (map fst sizes) (int_shape x) (map (map axis_of) (left_groups e L)) (env0 sizes, false) = Ok (env, need) ->
    (forall l, In l (concat (left_groups e L)) -> env (axis_of l) = Z.of_nat (len l)) ->
    forall l, In l (concat (left_groups e L) ++ concat (right_groups e L R)) -> env (axis_of l) = Z.of_nat (len l).
  Proof.
    intros Hr Hi Hd Hg Hk Hgo [Hf1 [Hf2 Hf3]] Hinf Hleft l Hl.
    destruct (in_dec label_eq_dec l (concat (left_groups e L))) as [Hin|Hout]; auto.
    assert (Hlr : In l (concat (right_groups e L R))) by (apply in_app_or in Hl; tauto).
    apply infer_sound in Hinf as [_ [Hk0 _]]; auto.
    - rewrite Hk0.
      + destruct (new_label U pattern w (map fst sizes) L R e l Hr Hd Hi Hlr Hout) as [[s [-> Hs]]|[k [n ->]]].
        * simpl. destruct (dict_get_In sizes s Hs) as [z [-> Hz]]. symmetry. apply Hf3; auto.
        * simpl. symmetry. apply Hf2; auto.
      + right. intros X. apply Hout. apply (in_axes_gl U HU pattern L R e Hr Hd); auto.
    - apply (lcomp_NoDup U HU pattern L R e Hr Hd).
    - unfold int_shape. rewrite !map_length. symmetry. eapply groups_count; eauto.
  Qed.

  Lemma op_role_Some_inj w w' : op_role op = Some w -> op_role op = Some w' -> w = w'.
  Proof. congruence. Qed.

  (** the lengths determined by the code, for a correct call *)
  Lemma infer_ok w L R e len : call_ok U w pattern sizes (shp x) L R e len ->
    let lcomp := map (map axis_of) (left_groups e L) in
    names_ok U lcomp (rids_of L R e) (map fst sizes) = true /\
    groups_ok (map fst sizes) lcomp = true /\
    exists env, ref_infer (map fst sizes) (int_shape x) lcomp (env0 sizes, false)
                = Ok (env, existsb (fun g => negb (length g =? 1)) lcomp) /\
      forall l, In l (concat (left_groups e L) ++ concat (right_groups e L R)) -> env (axis_of l) = Z.of_nat (len l).
  Proof.
    intros [Hr Hi Hd Hfl Hk Hn H1 Hf Hdiv Hpl] lcomp.
    assert (Hg : no_grouped L) by (apply no_grouped_iff; auto; eapply keys_NoDup_L; eauto).
    assert (Hnames : names_ok U lcomp (rids_of L R e) (map fst sizes) = true) by (apply (names_ok_iff U pattern L R e); auto).
    assert (Hgo : groups_ok (map fst sizes) lcomp = true) by (apply (groups_ok_iff U HU L R pattern Hr); auto).
    split; auto. split; auto.
    set (Lam := concat (left_groups e L) ++ concat (right_groups e L R)).
    set (env' := lift Lam 0%Z (fun l => Z.of_nat (len l))).
    assert (Henv' : forall l, In l Lam -> env' (axis_of l) = Z.of_nat (len l)).
    { intros l Hl. unfold env'. rewrite lift_of; auto. intros a b Ha Hb. apply (labels_inj U HU pattern L R e Hr Hd); auto. }
    assert (Hleft : incl (concat (left_groups e L)) Lam) by (intros a Ha; apply in_or_app; auto).
    assert (Hk0 : forall a, In a (concat lcomp) -> is_known (map fst sizes) a = true -> env' a = env0 sizes a).
    { intros a Ha Hka. unfold lcomp in Ha. rewrite <- concat_map in Ha. apply in_map_iff in Ha as [l [<- Hl]].
      rewrite Henv' by auto. rewrite (known_label U HU L R pattern Hr (map fst sizes) Hn) in Hka.
      destruct Hf as [Hf1 [Hf2 Hf3]]. destruct l as [s|i|k n]; simpl in *; try discriminate.
      - rewrite negb_involutive in Hka. apply str_mem_In in Hka.
        destruct (dict_get_In sizes s Hka) as [z [-> Hz]]. apply Hf3; auto.
      - apply Hf2. apply in_or_app; auto. }
    destruct (infer_complete (map fst sizes) (int_shape x) lcomp (env0 sizes) false env') as [env [E1 E2]]; auto.
    - apply (lcomp_NoDup U HU pattern L R e Hr Hd).
    - apply (fitsZ_labels Lam env' len); auto. apply Hf.
    - intros g Hgin. apply in_map_iff in Hgin as [g' [<- Hgin]]. unfold divisible.
      rewrite (unknowns_labels U HU L R pattern Hr (map fst sizes) Hn).
      intros Hu _. assert (Hu' : filter (unknown (map fst sizes)) g' <> []) by (intros E; apply Hu; rewrite E; reflexivity).
      specialize (Hdiv g' Hgin Hu').
      assert (Hgl : incl g' (concat (left_groups e L))) by (intros a Ha; apply in_concat; eauto).
      assert (Eq : map (env0 sizes) (knowns (map fst sizes) (map axis_of g'))
                   = map env' (map axis_of (filter (fun a => negb (unknown (map fst sizes) a)) g'))).
      { rewrite <- (knowns_labels U HU L R pattern Hr (map fst sizes) Hn). apply map_ext_in. intros a Ha.
        apply in_knowns in Ha as [Ha Hka]. symmetry. apply Hk0; auto.
        unfold lcomp. rewrite <- concat_map. apply in_map_iff in Ha as [l [<- Hl]]. apply in_map; auto. }
      rewrite Eq. rewrite (prod_labels Lam env' len); auto; [lia|].
      intros a Ha. apply filter_In in Ha as [Ha _]. auto.
    - exists env. split; [exact E1|].
      eapply env_agrees; eauto. intros l Hl. rewrite E2.
      + apply Henv'; auto.
      + unfold lcomp. rewrite <- concat_map. apply in_map; auto.
  Qed.

  (** what the last two steps do to a reduced tensor *)
  Definition only_reshape (gr : list (list label)) (len : label -> nat) (t3 : tensor A) : result (tensor A) :=
    if existsb (fun g => negb (length g =? 1)) gr then t_reshape lib t3 (map Z.of_nat (gshape len gr)) else Ok t3.

  Lemma existsb_single gs : existsb (fun g : list axis => negb (length g =? 1)) (map (map axis_of) gs)
                            = existsb (fun g => negb (length g =? 1)) gs.
  Proof. rewrite existsb_map. apply existsb_ext_in. intros g _. rewrite map_length. reflexivity. Qed.

  Lemma core_eq w L R e len :
    op_role op = Some w -> wf x -> adds_axes add_ -> call_ok U w pattern sizes (shp x) L R e len ->
    let gl := left_groups e L in
    let gr := right_groups e L R in
    exists t2 fin,
      repr t2 (kept gl gr ++ missing gl gr) len (fun ix => getr x (gindex len ix gl)) /\
      call = (let* t3 := match missing gl gr with
                         | [] => Ok t2
                         | _ => reduce_ t2 (seq (length (kept gl gr)) (length (missing gl gr)))
                         end in fin t3) /\
      (forall t3 f, looks_at (concat gl ++ concat gr) f -> repr t3 (kept gl gr) len f ->
         exists y, fin t3 = Ok y /\ grepr y gr len f) /\
      (w <> Repeating -> forall t3, fin t3 = only_reshape gr len t3).
  Proof.
    intros Hw Hwf Hadd Hok gl gr. pose proof (infer_ok w L R e len Hok) as [Hnames [Hgo [env [Hinf Henv]]]].
    destruct Hok as [Hr Hi Hd Hfl Hk Hn H1 Hf Hdiv Hpl].
    assert (Hg : no_grouped L) by (apply no_grouped_iff; auto; eapply keys_NoDup_L; eauto).
    rewrite (call_split L R e w) by auto. rewrite Hnames, Hgo. unfold after_front. fold gl gr. fold gl in Hinf. fold gl gr in Henv. rewrite Hinf. cbn [bind].
    set (Lam := concat gl ++ concat gr) in *.
    set (lcomp := map (map axis_of) gl) in *. set (rcomp := map (map axis_of) gr) in *.
    pose proof (front_resolved U HU pattern L R e Hr Hd w (map fst sizes) Hi Hpl) as HR. fold gl gr lcomp rcomp in HR.
    set (lenA := fun a => Z.to_nat (env a)).
    assert (Hlen : forall l, In l Lam -> len l = lenA (axis_of l)).
    { intros l Hl. unfold lenA. rewrite Henv by auto. rewrite Nat2Z.id. reflexivity. }
    assert (HenvA : forall a, In a (concat lcomp) \/ In a (concat rcomp) -> env a = Z.of_nat (lenA a)).
    { intros a Ha. unfold lenA. assert (exists l, In l Lam /\ a = axis_of l) as [l [Hl ->]].
      { unfold lcomp, rcomp in Ha. rewrite <- !concat_map in Ha.
        destruct Ha as [Ha|Ha]; apply in_map_iff in Ha as [l [<- Hl]]; exists l; split; auto; apply in_or_app; auto. }
      rewrite Henv by auto. rewrite Nat2Z.id. reflexivity. }
    assert (Hinj : forall a b, In a Lam -> In b Lam -> axis_of a = axis_of b -> a = b).
    { intros a b Ha Hb. apply (labels_inj U HU pattern L R e Hr Hd); auto. }
    assert (Hincl : incl (concat gl) Lam) by (intros a Ha; apply in_or_app; auto).
    assert (Hincr : incl (concat gr) Lam) by (intros a Ha; apply in_or_app; auto).
    assert (Hik : incl (kept gl gr) Lam) by (intros a Ha; apply filter_In in Ha as [Ha _]; auto).
    assert (Him : incl (missing gl gr) Lam) by (intros a Ha; apply filter_In in Ha as [Ha _]; auto).
    assert (Hs : shp x = gshape lenA lcomp).
    { unfold lcomp. rewrite (gshape_len Lam len lenA Hlen) by auto. symmetry. apply Hf. }
    destruct (steps_split lib o lcomp rcomp (lids_of L e) (rids_of L R e) HR env lenA HenvA reduce_ add_ x Hwf Hs)
      as [t2 [R2 E2]].
    pose proof (kept_axes U HU pattern L R e Hr Hd) as Ek. fold gl gr lcomp rcomp in Ek.
    pose proof (missing_axes U HU pattern L R e Hr Hd Hpl) as Em. fold gl gr lcomp rcomp in Em.
    exists t2, (finish lib add_ (closed_cooked o lcomp rcomp (rids_of L R e) env (existsb (fun g => negb (length g =? 1)) lcomp))).
    split; [|split; [|split]].
    - rewrite Ek, Em, <- map_app in R2. apply (repr_to_labels Lam Hinj len lenA Hlen) with (3 := R2).
      + intros a Ha. apply in_app_or in Ha as [Ha|Ha]; auto.
      + intros ix _. f_equal. unfold lcomp. apply (gindex_len Lam len lenA Hlen); auto.
        intros l Hl. rewrite lift_of; auto.
    - rewrite E2, Ek, Em. destruct (missing gl gr) as [|m ms]; [reflexivity|]. cbn [map]. rewrite !map_length. cbn [length].
      rewrite map_length. reflexivity.
    - intros t3 f Hlook R3. apply (repr_to_axes Lam len lenA Hlen) in R3; auto. rewrite <- Ek in R3.
      destruct (finish_repr lib o lcomp rcomp (lids_of L e) (rids_of L R e) HR env lenA HenvA add_ t3 _ Hadd R3) as [y [Ey Ry]].
      exists y; split; auto. unfold rcomp in Ry.
      apply (grepr_to_labels Lam Hinj len lenA Hlen) with (3 := Ry); auto.
      intros ix _. apply Hlook. intros l Hl. rewrite lift_of; auto.
    - intros Hnr t3. unfold finish.
      assert (Hadded : added_of lcomp rcomp = []) by (apply added_nil; eapply no_new; eauto).
      unfold closed_cooked. cbn [k_added k_final]. rewrite Hadded. cbn [map bind]. unfold only_reshape.
      replace (existsb (fun g => negb (length g =? 1)) rcomp) with (existsb (fun g => negb (length g =? 1)) gr)
        by (symmetry; apply existsb_single).
      destruct (existsb (fun g => negb (length g =? 1)) gr); [|reflexivity]. f_equal.
      unfold gshape, rcomp. rewrite !map_map. apply map_ext_in. intros g Hgin.
      apply (prod_labels Lam); auto. intros a Ha. apply Hincr, in_concat. eauto.
  Qed.

  (** ** a successful call is a correct one *)
  Lemma divisible_labels L R e env len g : reads U pattern L R ->
    (forall s, In s (map fst sizes) -> s <> ell_name /\ In s (keys L ++ keys R)) ->
    (has_dots R = true -> has_dots L = true) ->
    In g (left_groups e L) ->
    (forall l, In l (concat (left_groups e L) ++ concat (right_groups e L R)) -> env (axis_of l) = Z.of_nat (len l)) ->
    divisible (map fst sizes) env (map axis_of g) -> filter (unknown (map fst sizes)) g <> [] ->
    prodn (map len (filter (fun a => negb (unknown (map fst sizes) a)) g)) <> 0.
  Proof.
    intros Hr Hn Hd Hg Henv Hdiv Hu E. unfold divisible in Hdiv.
    rewrite (unknowns_labels U HU L R pattern Hr (map fst sizes) Hn), (knowns_labels U HU L R pattern Hr (map fst sizes) Hn) in Hdiv.
    destruct (filter (fun a => negb (unknown (map fst sizes) a)) g) as [|k ks] eqn:Ek.
    - simpl in E. discriminate.
    - apply Hdiv.
      + intros X. apply map_eq_nil in X. auto.
      + discriminate.
      + rewrite (prod_labels _ env len _ Henv); [rewrite E; reflexivity|].
        rewrite <- Ek. intros a Ha. apply filter_In in Ha as [Ha _]. apply in_or_app; left. apply in_concat; eauto.
  Qed.

  Lemma odd_dup L R e : reads U pattern L R -> (has_dots R = true -> has_dots L = true) ->
    odd_pattern L R -> e <> 0 ->
    ~ NoDup (order_after_of (map (map axis_of) (left_groups e L)) (map (map axis_of) (right_groups e L R)) (rids_of L R e)).
  Proof.
    intros Hr Hd [EL [ER Hk]] He Hn. unfold order_after_of in Hn. apply NoDup_app_iff in Hn as [_ [_ Hn]].
    assert (Hin : In (ell_axis 0) (concat (map (map axis_of) (left_groups e L)))) by (apply (ell_left L R e Hd); auto; lia).
    apply (Hn (ell_axis 0)).
    - apply kept_In. split; auto. apply (in_right L R e Hd). rewrite EL. simpl. right. repeat split; auto. exists 0; split; auto; lia.
    - apply reduced_In. split; auto. intros X. apply (in_rids_diff L R e) in X; auto.
      unfold ell_axis in X. simpl in X. destruct X as [[X _]|[X _]]; [|discriminate].
      apply (key_plain_R U pattern L R Hr) in X. eapply (name_not_ell_axis U _ 0); eauto.
  Qed.

  Lemma core_sound bad y : adds_axes add_ -> rejects bad add_ ->
    (forall L R s z, reads U pattern L R -> In (s, z) sizes -> ~ In s (keys L) -> (z < 0)%Z ->
       op_role op = Some Repeating -> bad z) ->
    wf x -> call = Ok y ->
    exists w L R e len, op_role op = Some w /\ call_ok U w pattern sizes (shp x) L R e len.
  Proof.
    intros Hadd Hrej Hneg Hwf H.
    assert (Hfront : exists v, frontend U pattern op (map fst sizes) (length (int_shape x)) = Ok v).
    { unfold core_call in H. rewrite prepare_split in H. apply bind_Ok in H as [r [H _]]. apply bind_Ok in H as [v [H _]]. eauto. }
    destruct Hfront as [v Hv]. apply frontend_iff in Hv as [L [R [e [w [Hr [Hw [Hi [Hd [Hg [Hk _]]]]]]]]]]; auto.
    unfold int_shape in Hk. rewrite map_length in Hk.
    rewrite (call_split L R e w) in H by auto.
    destruct (names_ok U _ (rids_of L R e) (map fst sizes)) eqn:En; [|discriminate].
    destruct (groups_ok (map fst sizes) _) eqn:Eg; [|discriminate].
    unfold after_front in H. apply bind_Ok in H as [[env need] [Hinf H]].
    set (gl := left_groups e L) in *. set (gr := right_groups e L R) in *.
    set (lcomp := map (map axis_of) gl) in *. set (rcomp := map (map axis_of) gr) in *.
    pose proof (proj1 (names_ok_iff U pattern L R e (map fst sizes) HU Hr Hd) En) as Hn.
    pose proof (proj1 (groups_ok_iff U HU L R pattern Hr (map fst sizes) Hn gl) Eg) as H1.
    assert (Hcount : length (int_shape x) = length lcomp).
    { unfold int_shape, lcomp. rewrite !map_length. symmetry. eapply groups_count; eauto. }
    pose proof (infer_sound _ _ _ _ _ _ _ (lcomp_NoDup U HU pattern L R e Hr Hd) Eg Hcount Hinf) as [Hfit [Hkn [Hneed Hdv]]].
    simpl in Hneed. fold lcomp in Hneed. subst need.
    assert (Hpl : odd_pattern L R -> e = 0).
    { intros Hodd. destruct e as [|e']; auto. exfalso. apply steps_perm_ok in H.
      eapply (odd_dup L R (S e')); eauto. }
    pose proof (front_resolved U HU pattern L R e Hr Hd w (map fst sizes) Hi Hpl) as HR. fold gl gr lcomp rcomp in HR.
    pose proof (steps_left_nonneg lib reduce_ add_ o lcomp rcomp (lids_of L e) (rids_of L R e) env HR x y Hfit H) as Hleft.
    pose proof (steps_new_good lib reduce_ add_ o lcomp rcomp (rids_of L R e) env bad x y Hrej H) as Hnew.
    assert (Hval : forall l, In l (concat gr) -> ~ In l (concat gl) -> env (axis_of l) = env0 sizes (axis_of l)).
    { intros l Hl Hout. apply Hkn. right. intros X. apply Hout.
      apply (in_axes_gl U HU pattern L R e Hr Hd); auto. apply in_or_app; auto. }
    assert (Hpos : forall l, In l (concat gl ++ concat gr) -> (0 <= env (axis_of l))%Z).
    { intros l Hl. destruct (in_dec label_eq_dec l (concat gl)) as [Hin|Hout].
      - apply Hleft. unfold lcomp. rewrite <- concat_map. apply in_map; auto.
      - assert (Hlr : In l (concat gr)) by (apply in_app_or in Hl; tauto).
        destruct (Z.lt_ge_cases (env (axis_of l)) 0) as [Hz|Hz]; [exfalso|lia].
        apply (Hnew (axis_of l)).
        + unfold rcomp. rewrite <- concat_map. apply in_map; auto.
        + intros X. apply Hout. apply (in_axes_gl U HU pattern L R e Hr Hd); auto.
        + pose proof (Hval l Hlr Hout) as Ev.
          destruct (new_label U pattern w (map fst sizes) L R e l Hr Hd Hi Hlr Hout) as [[s [-> Hs]]|[k [n ->]]].
          * simpl in Ev. destruct (dict_get_In sizes s Hs) as [z [Ez Hzin]]. rewrite Ez in Ev.
            simpl. rewrite Ev. apply (Hneg L R s); auto; [|simpl in Hz; lia|].
            { intros X. apply Hout. unfold gl, left_groups. rewrite concat_groups.
              apply in_atoms_labels; [apply (side_L L R Hd)|]. simpl. split; auto. right. apply Hn; auto. }
            destruct w; auto.
            -- exfalso. apply Hout. apply (in_axes_gl U HU pattern L R e Hr Hd); auto.
               eapply no_new; eauto; [discriminate|]. rewrite <- concat_map. apply in_map; auto.
            -- exfalso. apply Hout. apply (in_axes_gl U HU pattern L R e Hr Hd); auto.
               eapply no_new; eauto; [discriminate|]. rewrite <- concat_map. apply in_map; auto.
          * exfalso. simpl in Ev, Hz. rewrite Ev in Hz.
            assert (anon_ok (AxAnon k n)).
            { apply (anon_sides U pattern L R e Hr Hd).
              assert (Hrc : In (AxAnon k n) (concat rcomp)) by (unfold rcomp; rewrite <- concat_map; apply (in_map axis_of _ (LNum k n)); auto).
              apply (rcomp_rids L R e Hd); auto. }
            simpl in H0. lia. }
    set (len := fun l => Z.to_nat (env (axis_of l))).
    assert (Hlen : forall l, In l (concat gl ++ concat gr) -> env (axis_of l) = Z.of_nat (len l)).
    { intros l Hl. unfold len. rewrite Z2Nat.id; auto. }
    exists w, L, R, e, len. split; auto. constructor; auto.
    - apply no_grouped_iff; auto. eapply keys_NoDup_L; eauto.
    - split; [|split].
      + apply (fitsZ_labels (concat gl ++ concat gr) env len); auto. intros a Ha; apply in_or_app; auto.
      + intros k n Hin. rewrite <- Hlen by auto. simpl. rewrite Hkn by (left; reflexivity). reflexivity.
      + intros s z Hz. assert (Hs : In s (map fst sizes)) by (apply (in_map fst) in Hz; exact Hz).
        rewrite <- Hlen.
        * simpl. rewrite Hkn by (left; simpl; apply str_mem_In; auto). simpl. rewrite (dict_get_NoDup _ _ _ Hns Hz). reflexivity.
        * destruct (Hn s Hs). eapply name_label; eauto.
    - intros g Hgin Hu. eapply (divisible_labels L R e env len g); eauto.
      assert (Hd0 : divisible (map fst sizes) (env0 sizes) (map axis_of g)) by (apply Hdv, in_map; auto).
      unfold divisible in *. rewrite (knowns_env _ (env0 sizes) env); auto.
  Qed.

  (** ** uniqueness *)
  Lemma call_unique w w' L R e len L' R' e' len' :
    call_ok U w pattern sizes (shp x) L R e len -> call_ok U w' pattern sizes (shp x) L' R' e' len' ->
    L = L' /\ R = R' /\ e = e' /\
    forall l, In l (concat (left_groups e L) ++ concat (right_groups e L R)) -> len l = len' l.
  Proof.
    intros H H'. destruct (reads_fun U HU pattern L R L' R' (co_reads _ _ _ _ _ _ _ _ _ H) (co_reads _ _ _ _ _ _ _ _ _ H')) as [<- <-].
    assert (e = e') as <-.
    { pose proof (co_rank _ _ _ _ _ _ _ _ _ H) as K. pose proof (co_rank _ _ _ _ _ _ _ _ _ H') as K'.
      unfold rank_fits in *. destruct (has_dots L); lia. }
    repeat split; auto. intros l Hl.
    destruct (infer_ok _ _ _ _ _ H) as [_ [_ [env [E1 E2]]]]. destruct (infer_ok _ _ _ _ _ H') as [_ [_ [env' [E1' E2']]]].
    rewrite E1 in E1'. inversion E1'; subst env'. specialize (E2 l Hl). specialize (E2' l Hl). lia.
  Qed.

  (** ** every call is correct or fails in a listed way *)
  Definition failure (ex : exn) : Prop :=
    ex = EinopsError \/
    (ex = ValueError /\ forall l r, arrow_free l -> arrow_free r -> pattern <> l ++ s_arrow ++ r) \/
    (exists L R e g s, ex = ZeroDivisionError /\ reads U pattern L R /\ In g (left_groups e L) /\
        filter (unknown (map fst sizes)) g <> [] /\ In (LName s) g /\ In (s, 0%Z) sizes) \/
    (exists L R, ex = BackendError /\ reads U pattern L R /\ odd_pattern L R).

  Lemma reshape_err t s ex : t_reshape lib t s = @Err (tensor A) ex -> ex = BackendError.
  Proof.
    intros H. unfold t_reshape, resolve_shape in H. apply bind_Err in H as [H|[? [_ H]]]; [|discriminate].
    repeat match type of H with context [if ?c then _ else _] => destruct c end; congruence.
  Qed.

  Lemma steps_odd L R e env need : reads U pattern L R -> (has_dots R = true -> has_dots L = true) ->
    odd_pattern L R -> e <> 0 ->
    steps lib reduce_ add_ (closed_cooked o (map (map axis_of) (left_groups e L)) (map (map axis_of) (right_groups e L R))
        (rids_of L R e) env need) x = Err BackendError.
  Proof.
    intros Hr Hd Hodd He. pose proof (odd_dup L R e Hr Hd Hodd He) as Hdup.
    unfold steps, closed_cooked. cbn [k_init k_reorder].
    match goal with |- bind ?a _ = _ => destruct a as [t1|ex] eqn:E1 end; cbn [bind].
    2:{ destruct need; [|discriminate]. apply reshape_err in E1. congruence. }
    destruct (list_eq_dec _ _ _) as [E|E].
    - exfalso. apply Hdup. apply (NoDup_map_inv (pos_in (concat (map (map axis_of) (left_groups e L))))). rewrite E. apply seq_NoDup.
    - unfold t_transpose. destruct (is_permutation _ _) eqn:Ep; [|reflexivity]. exfalso. apply Hdup.
      unfold is_permutation in Ep. apply andb_true_iff in Ep as [_ Ep]. apply nat_nodupb_NoDup in Ep. apply NoDup_map_inv in Ep. auto.
  Qed.

  Lemma Forall2_in_r {B C} (P : B -> C -> Prop) l m c : Forall2 P l m -> In c m -> exists b, In b l /\ P b c.
  Proof.
    induction 1; intros Hin; [destruct Hin|]. destruct Hin as [->|Hin]; [exists x0; split; auto; left; auto|].
    destruct (IHForall2 Hin) as [b [Hb HP]]. exists b; split; auto. right; auto.
  Qed.

  (** a product of one unknown factor and known ones *)
  Lemma prod_one_unknown (env : axis -> Z) (p : label -> bool) g l :
    length (filter p g) <= 1 -> In l g -> p l = true ->
    prodZ (map env (map axis_of g)) = (env (axis_of l) * prodZ (map env (map axis_of (filter (fun a => negb (p a)) g))))%Z.
  Proof.
    induction g as [|a g IH]; intros H1 Hl Hp; [destruct Hl|]. cbn [map filter] in *.
    change (prodZ (env (axis_of a) :: map env (map axis_of g))) with (env (axis_of a) * prodZ (map env (map axis_of g)))%Z.
    destruct (p a) eqn:E; simpl in H1; cbn [negb].
    - assert (Hnil : filter p g = []) by (destruct (filter p g); auto; simpl in H1; lia).
      assert (Hall : filter (fun a => negb (p a)) g = g).
      { apply filter_all. intros b Hb. apply negb_true_iff. destruct (p b) eqn:Eb; auto. exfalso.
        assert (In b (filter p g)) by (apply filter_In; auto). rewrite Hnil in H. auto. }
      destruct Hl as [->|Hl]; [rewrite Hall; reflexivity|]. exfalso.
      assert (In l (filter p g)) by (apply filter_In; auto). rewrite Hnil in H. auto.
    - destruct Hl as [->|Hl]; [congruence|]. rewrite (IH H1 Hl Hp). cbn [map].
      change (prodZ (env (axis_of a) :: map env (map axis_of (filter (fun a => negb (p a)) g))))
        with (env (axis_of a) * prodZ (map env (map axis_of (filter (fun a => negb (p a)) g))))%Z. ring.
  Qed.

  Lemma core_total : (forall s z, In (s, z) sizes -> (0 <= z)%Z) ->
    (exists w L R e len, op_role op = Some w /\ call_ok U w pattern sizes (shp x) L R e len) \/
    (exists ex, call = Err ex /\ failure ex).
  Proof.
    intros Hpos.
    destruct (frontend U pattern op (map fst sizes) (length (int_shape x))) as [v|ef] eqn:Ef.
    2:{ right. exists ef. split.
        - unfold core_call. rewrite prepare_split, Ef. reflexivity.
        - apply frontend_err in Ef; auto. unfold failure. tauto. }
    apply frontend_iff in Ef as [L [R [e [w [Hr [Hw [Hi [Hd [Hg [Hk _]]]]]]]]]]; auto.
    unfold int_shape in Hk. rewrite map_length in Hk.
    rewrite (call_split L R e w) by auto.
    destruct (names_ok U _ (rids_of L R e) (map fst sizes)) eqn:En; [|right; exists EinopsError; split; [reflexivity|left; reflexivity]].
    destruct (groups_ok (map fst sizes) _) eqn:Eg; [|right; exists EinopsError; split; [reflexivity|left; reflexivity]].
    pose proof (proj1 (names_ok_iff U pattern L R e (map fst sizes) HU Hr Hd) En) as Hn.
    pose proof (proj1 (groups_ok_iff U HU L R pattern Hr (map fst sizes) Hn _) Eg) as H1.
    assert (Hnum : forall k n, In (LNum k n) (concat (left_groups e L) ++ concat (right_groups e L R)) -> (2 <= n)%Z).
    { intros k n Hin. assert (X : anon_ok (AxAnon k n)).
      { apply (anon_sides U pattern L R e Hr Hd). apply in_app_or in Hin as [Hin|Hin].
        - left. rewrite <- concat_map. apply (in_map axis_of _ (LNum k n)); auto.
        - apply (rcomp_rids L R e Hd). rewrite <- concat_map. apply (in_map axis_of _ (LNum k n)); auto. }
      simpl in X. lia. }
    set (gl := left_groups e L) in *. set (gr := right_groups e L R) in *.
    assert (Hkpos : forall l, In l (concat gl ++ concat gr) -> unknown (map fst sizes) l = false -> (0 <= env0 sizes (axis_of l))%Z).
    { intros l Hl Hu. destruct l as [s|i|k n]; simpl in *; try discriminate.
      - apply negb_false_iff, str_mem_In in Hu. destruct (dict_get_In sizes s Hu) as [z [-> Hz]]. eapply Hpos; eauto.
      - specialize (Hnum k n Hl). lia. }
    unfold after_front. fold gl gr.
    destruct (ref_infer (map fst sizes) (int_shape x) (map (map axis_of) gl) (env0 sizes, false)) as [[env need]|ei] eqn:Hinf; cbn [bind].
    2:{ right. exists ei; split; auto.
        apply infer_err in Hinf; [|exact Eg]. destruct Hinf as [Hinf|[-> [g [Hgin Hndv]]]]; [left; auto|]. right; right; left.
        apply in_map_iff in Hgin as [g' [<- Hgin]].
        assert (Hu : filter (unknown (map fst sizes)) g' <> []).
        { intros E. apply Hndv. unfold divisible. rewrite (unknowns_labels U HU L R pattern Hr (map fst sizes) Hn), E. intros X; exfalso; apply X; reflexivity. }
        assert (Hz : prodZ (map (env0 sizes) (knowns (map fst sizes) (map axis_of g'))) = 0%Z).
        { destruct (Z.eq_dec (prodZ (map (env0 sizes) (knowns (map fst sizes) (map axis_of g')))) 0); auto.
          exfalso. apply Hndv. unfold divisible. auto. }
        rewrite (knowns_labels U HU L R pattern Hr (map fst sizes) Hn) in Hz.
        assert (Hex : exists l, In l (filter (fun a => negb (unknown (map fst sizes) a)) g') /\ env0 sizes (axis_of l) = 0%Z).
        { clear -Hz. induction (filter _ g') as [|l ls IH]; [discriminate|]. cbn [map] in Hz.
          change (env0 sizes (axis_of l) * prodZ (map (env0 sizes) (map axis_of ls)) = 0)%Z in Hz.
          apply Z.mul_eq_0 in Hz as [Hz|Hz]; [exists l; split; auto; left; auto|].
          destruct (IH Hz) as [m [Hm E]]. exists m; split; auto. right; auto. }
        destruct Hex as [l [Hl E]]. apply filter_In in Hl as [Hl Hun]. apply negb_true_iff in Hun.
        destruct l as [s|i|k n]; simpl in *; try discriminate.
        + apply negb_false_iff, str_mem_In in Hun. destruct (dict_get_In sizes s Hun) as [z [Ez Hzin]].
          rewrite Ez in E. subst z. exists L, R, e, g', s. repeat split; auto.
        + exfalso. specialize (Hnum k n). rewrite in_app_iff, in_concat in Hnum. specialize (Hnum (or_introl (ex_intro _ g' (conj Hgin Hl)))). lia. }
    assert (Hcount : length (int_shape x) = length (map (map axis_of) gl)).
    { unfold int_shape. rewrite !map_length. symmetry. eapply groups_count; eauto. }
    pose proof (infer_sound _ _ _ _ _ _ _ (lcomp_NoDup U HU pattern L R e Hr Hd) Eg Hcount Hinf) as [Hfit [Hkn [Hneed Hdv]]].
    fold gl in Hfit, Hkn, Hneed, Hdv.
    assert (Hcase : (odd_pattern L R -> e = 0) \/ (odd_pattern L R /\ e <> 0)).
    { destruct (Nat.eq_dec e 0) as [He|He]; [left; auto|].
      destruct (has_dots L) eqn:EL; [|left; intros [X _]; congruence].
      destruct (has_dots R) eqn:ER; [left; intros [_ [X _]]; congruence|].
      destruct (in_dec str_eq_dec ell_name (keys R)); [right; repeat split; auto|left; intros [_ [_ X]]; contradiction]. }
    destruct Hcase as [Hpl|[Hodd He]].
    2:{ right. exists BackendError. split; [apply steps_odd; auto|]. right; right; right. exists L, R; auto. }
    left.
    assert (Hval : forall l, In l (concat gr) -> ~ In l (concat gl) -> env (axis_of l) = env0 sizes (axis_of l)).
    { intros l Hl Hout. apply Hkn. right. intros X. apply Hout.
      apply (in_axes_gl U HU pattern L R e Hr Hd); auto. apply in_or_app; auto. }
    assert (Hkn' : forall l, unknown (map fst sizes) l = false -> env (axis_of l) = env0 sizes (axis_of l)).
    { intros l Hu. apply Hkn. left. rewrite (known_label U HU L R pattern Hr (map fst sizes) Hn), Hu. reflexivity. }
    assert (Hposl : forall l, In l (concat gl ++ concat gr) -> (0 <= env (axis_of l))%Z).
    { intros l Hl. destruct (unknown (map fst sizes) l) eqn:Hu; [|rewrite Hkn' by auto; apply Hkpos; auto].
      destruct (in_dec label_eq_dec l (concat gl)) as [Hin|Hout].
      - apply in_concat in Hin as [g [Hgin Hlg]].
        destruct (Forall2_in_r _ _ _ (map axis_of g) Hfit) as [b [Hb Eb]]; [apply in_map; auto|].
        unfold int_shape in Hb. apply in_map_iff in Hb as [n [<- _]].
        rewrite (prod_one_unknown env (unknown (map fst sizes)) g l) in Eb by auto.
        assert (Hkp : (0 < prodZ (map env (map axis_of (filter (fun a => negb (unknown (map fst sizes) a)) g))))%Z).
        { assert (Hnn : (0 <= prodZ (map env (map axis_of (filter (fun a => negb (unknown (map fst sizes) a)) g))))%Z).
          { apply prodZ_nonneg. intros z Hz. rewrite map_map in Hz. apply in_map_iff in Hz as [m [<- Hm]].
            apply filter_In in Hm as [Hm1 Hm2]. apply negb_true_iff in Hm2. rewrite Hkn' by auto. apply Hkpos; auto.
            apply in_or_app; left. apply in_concat; eauto. }
          assert (Hne : prodZ (map env (map axis_of (filter (fun a => negb (unknown (map fst sizes) a)) g))) <> 0%Z); [|lia].
          destruct (filter (fun a => negb (unknown (map fst sizes) a)) g) as [|m ms] eqn:Em; [discriminate|].
          specialize (Hdv (map axis_of g) (in_map _ _ _ Hgin)). unfold divisible in Hdv.
          rewrite (unknowns_labels U HU L R pattern Hr (map fst sizes) Hn), (knowns_labels U HU L R pattern Hr (map fst sizes) Hn), Em in Hdv.
          replace (map env (map axis_of (m :: ms))) with (map (env0 sizes) (map axis_of (m :: ms))).
          - apply Hdv; [|discriminate]. intros X. apply map_eq_nil in X.
            assert (Y : In l (filter (unknown (map fst sizes)) g)) by (apply filter_In; auto). rewrite X in Y. destruct Y.
          - apply map_ext_in. intros a Ha. apply in_map_iff in Ha as [c [<- Hc]]. symmetry. apply Hkn'.
            rewrite <- Em in Hc. apply filter_In in Hc as [_ Hc]. apply negb_true_iff; auto. }
        destruct (Z.lt_ge_cases (env (axis_of l)) 0) as [Hz|Hz]; [|lia]. exfalso.
        assert (env (axis_of l) * prodZ (map env (map axis_of (filter (fun a => negb (unknown (map fst sizes) a)) g))) < 0)%Z by (apply Z.mul_neg_pos; auto).
        lia.
      - exfalso. assert (Hlr : In l (concat gr)) by (apply in_app_or in Hl; tauto).
        destruct (new_label U pattern w (map fst sizes) L R e l Hr Hd Hi Hlr Hout) as [[s [-> Hs]]|[k [n ->]]]; simpl in Hu; [|discriminate].
        apply str_mem_In in Hs. rewrite Hs in Hu. discriminate. }
    set (len := fun l => Z.to_nat (env (axis_of l))).
    assert (Hlen : forall l, In l (concat gl ++ concat gr) -> env (axis_of l) = Z.of_nat (len l)).
    { intros l Hl. unfold len. rewrite Z2Nat.id; auto. }
    exists w, L, R, e, len. split; auto. constructor; auto.
    - apply no_grouped_iff; auto. eapply keys_NoDup_L; eauto.
    - split; [|split].
      + apply (fitsZ_labels (concat gl ++ concat gr) env len); auto. intros a Ha; apply in_or_app; auto.
      + intros k n Hin. rewrite <- Hlen by auto. simpl. rewrite Hkn by (left; reflexivity). reflexivity.
      + intros s z Hz. assert (Hs : In s (map fst sizes)) by (apply (in_map fst) in Hz; exact Hz).
        rewrite <- Hlen.
        * simpl. rewrite Hkn by (left; simpl; apply str_mem_In; auto). simpl. rewrite (dict_get_NoDup _ _ _ Hns Hz). reflexivity.
        * destruct (Hn s Hs). eapply name_label; eauto.
    - intros g Hgin Hu. eapply (divisible_labels L R e env len g); eauto.
      assert (Hd0 : divisible (map fst sizes) (env0 sizes) (map axis_of g)) by (apply Hdv, in_map; auto).
      unfold divisible in *. intros X Y. specialize (Hd0 X Y).
      replace (map env (knowns (map fst sizes) (map axis_of g))) with (map (env0 sizes) (knowns (map fst sizes) (map axis_of g))); auto.
      apply map_ext_in. intros a Ha. apply in_knowns in Ha as [_ Ha]. symmetry. apply Hkn; auto.
  Qed.
End Core.
