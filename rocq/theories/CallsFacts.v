(** * The library functions that a call runs: proofs *)
From Verif Require Import Py Tensor ListFacts TensorFacts SpecSem SpecGrammar SpecPattern SpecOps SpecCalls Parsing Compile Recipe Ops Backends StepFacts ParseFacts ParseFacts2 ParseFacts3 RecipeFacts InferFacts ApplyFacts FrontFacts FrontFacts2 FrontFacts3 MainFacts MainFacts2 MainFacts3.

Lemma place_pos l a : (forall b, In b l -> axis_of a = axis_of b -> a = b) -> In a l ->
  pos_in (map axis_of l) (axis_of a) = place l a.
Proof.
  intros Hinj Hin. unfold pos_in.
  assert (G : index_of axis_eqb (axis_of a) (map axis_of l) = Some (place l a)); [|rewrite G; reflexivity].
  induction l as [|b l IH]; [destruct Hin|]. cbn [map index_of place]. unfold label_eqb.
  destruct (label_eq_dec a b) as [->|Hne].
  - destruct (axis_eqb (axis_of b) (axis_of b)) eqn:E; [reflexivity|].
    assert (axis_eqb (axis_of b) (axis_of b) = true) by (apply axis_eqb_eq; reflexivity). congruence.
  - destruct (axis_eqb (axis_of a) (axis_of b)) eqn:E.
    + apply axis_eqb_eq in E. exfalso. apply Hne. apply Hinj; [left; auto|auto].
    + rewrite IH; [reflexivity| |].
      * intros c Hc. apply Hinj. right; auto.
      * destruct Hin as [->|Hin]; [contradiction|auto].
Qed.

Lemma map_inj_on {B C} (f : B -> C) (X l m : list B) : (forall a b, In a X -> In b X -> f a = f b -> a = b) ->
  incl l X -> incl m X -> map f l = map f m -> l = m.
Proof.
  intros Hf. revert m. induction l as [|a l IH]; intros [|b m] Hl Hm E; try discriminate; auto.
  cbn [map] in E. injection E as E1 E2. f_equal.
  - apply Hf; auto; [apply Hl|apply Hm]; left; auto.
  - apply IH; auto; intros c Hc; [apply Hl|apply Hm]; right; auto.
Qed.

Lemma singles_existsb gs : existsb (fun g : list label => negb (length g =? 1)) gs = negb (singles gs).
Proof. unfold singles. induction gs as [|g gs IH]; cbn; auto. rewrite IH, negb_andb. reflexivity. Qed.

Lemma enumerate_map {B C} (f : B -> C) l k : enumerate_from k (map f l) = map (fun '(i, a) => (i, f a)) (enumerate_from k l).
Proof. revert k. induction l as [|a l IH]; intros k; cbn; auto. rewrite IH. reflexivity. Qed.

Lemma runs_as_role {T} (rd : reduction T) w : runs_as rd w -> op_role (op_of rd) = Some w.
Proof.
  intros [| |s H|f]; try reflexivity. repeat (destruct H as [<-|H]; [reflexivity|]). destruct H.
Qed.

Section Cooked.
  Context (U : unicode) (HU : unicode_ok U) (o : orders) (Ho : orders_ok o).
  Context (pattern : pystr) (op : operation) (sizes : list (pystr * Z)) (sh : list nat).
  Context (w : role) (L R : expr) (e : nat) (len : label -> nat).
  Context (Hns : NoDup (map fst sizes)) (Hw : op_role op = Some w) (Hok : call_ok U w pattern sizes sh L R e len).
  Notation gl := (left_groups e L).
  Notation gr := (right_groups e L R).
  Notation order := (kept gl gr ++ missing gl gr).

  Lemma cooked_known : exists r k,
    prepare_recipe U o pattern op (map fst sizes) (length sh) = Ok r /\
    reconstruct int_ops r (map Z.of_nat sh) sizes = Ok k /\
    k_init k = (if singles gl then None else Some (map Z.of_nat (map len (concat gl)))) /\
    k_reorder k = (if list_eq_dec label_eq_dec order (concat gl) then None else Some (map (place (concat gl)) order)) /\
    k_reduced k = seq (length (kept gl gr)) (length (missing gl gr)) /\
    k_added k = map (fun '(i, a) => (i, Z.of_nat (len a))) (fresh_axes gl gr) /\
    (fresh_axes gl gr <> [] -> k_naxes k = length (concat gr)) /\
    k_final k = (if singles gr then None else Some (map Z.of_nat (gshape len gr))).
  Proof.
    set (x := mkT sh (@nil unit)).
    destruct (infer_ok U HU (fun t _ => Ok t) (fun t _ _ => Ok t) pattern sizes x w L R e len Hok) as [Hnames [Hgo [env [Hinf Henv]]]].
    pose proof Hok as [Hr Hi Hd Hfl Hk Hn H1 Hf Hdiv Hpl].
    assert (Hg : no_grouped L) by (apply no_grouped_iff; auto; eapply keys_NoDup_L; eauto).
    set (Lam := concat gl ++ concat gr) in *.
    set (lcomp := map (map axis_of) gl) in *. set (rcomp := map (map axis_of) gr) in *.
    pose proof (front_weak U HU pattern L R e Hr Hd) as HW. fold lcomp rcomp in HW.
    pose proof (front_resolved U HU pattern L R e Hr Hd w (map fst sizes) Hi Hpl) as HR. fold lcomp rcomp in HR.
    exists (closed_recipe o (map fst sizes) lcomp rcomp (rids_of L R e)),
           (closed_cooked o lcomp rcomp (rids_of L R e) env (existsb (fun g => negb (length g =? 1)) lcomp)).
    split.
    { rewrite prepare_split.
      assert (Hfr : frontend U pattern op (map fst sizes) (length sh) = Ok (front_value L R e)).
      { apply frontend_iff; auto. exists L, R, e, w. repeat split; auto. }
      rewrite Hfr. cbn [bind]. rewrite front_value_eq.
      rewrite backend_closed; auto. fold lcomp. rewrite Hnames, Hgo. reflexivity. }
    split.
    { rewrite (reconstruct_closed o _ _ (lids_of L e)); auto.
      - change (map Z.of_nat sh) with (int_shape x). rewrite Hinf. reflexivity.
      - intros s Hs. unfold names_ok in Hnames. rewrite forallb_forall in Hnames. specialize (Hnames s Hs).
        apply andb_true_iff in Hnames as [_ E]. apply axis_mem_In, in_app_or in E. exact E.
      - unfold lcomp. rewrite !map_length. symmetry. eapply groups_count; eauto. }
    assert (Hinj : forall a b, In a Lam -> In b Lam -> axis_of a = axis_of b -> a = b).
    { intros a b Ha Hb. apply (labels_inj U HU pattern L R e Hr Hd); auto. }
    assert (Hincl : incl (concat gl) Lam) by (intros a Ha; apply in_or_app; auto).
    assert (Hincr : incl (concat gr) Lam) by (intros a Ha; apply in_or_app; auto).
    pose proof (kept_axes U HU pattern L R e Hr Hd) as Ek. fold lcomp rcomp in Ek.
    pose proof (missing_axes U HU pattern L R e Hr Hd Hpl) as Em. fold lcomp rcomp in Em.
    assert (Eo : order_after_of lcomp rcomp (rids_of L R e) = map axis_of order).
    { unfold order_after_of. rewrite Ek, Em, map_app. reflexivity. }
    assert (Ecl : concat lcomp = map axis_of (concat gl)) by (unfold lcomp; rewrite <- concat_map; reflexivity).
    assert (Ecr : concat rcomp = map axis_of (concat gr)) by (unfold rcomp; rewrite <- concat_map; reflexivity).
    assert (Hord : incl order (concat gl)).
    { intros a Ha. apply in_app_or in Ha as [Ha|Ha]; [apply in_kept in Ha; tauto|apply in_missing in Ha; tauto]. }
    assert (Eadd : added_of lcomp rcomp = map (fun '(i, a) => (i, axis_of a)) (fresh_axes gl gr)).
    { unfold added_of, fresh_axes. rewrite Ecr. unfold enumerate. rewrite enumerate_map.
      assert (G : forall l k, incl l (concat gr) ->
        filter (fun '(_, a) => negb (axis_mem a (concat lcomp))) (map (fun '(i, a) => (i, axis_of a)) (enumerate_from k l)) =
        map (fun '(i, a) => (i, axis_of a)) (filter (fun '(_, a) => negb (existsb (label_eqb a) (concat gl))) (enumerate_from k l))).
      { induction l as [|a l IH]; intros k Hl; cbn [enumerate_from map filter]; auto.
        assert (Ea : axis_mem (axis_of a) (concat lcomp) = existsb (label_eqb a) (concat gl)).
        { apply eq_true_iff_eq. rewrite axis_mem_In, label_mem_In. apply (in_axes_gl U HU pattern L R e Hr Hd).
          apply Hincr, Hl. left; auto. }
        rewrite Ea. destruct (existsb (label_eqb a) (concat gl)); cbn [negb map]; rewrite IH; auto; intros b Hb; apply Hl; right; auto. }
      apply G. apply incl_refl. }
    assert (Hnewin : forall i a, In (i, a) (fresh_axes gl gr) -> In a (concat gr) /\ ~ In a (concat gl)).
    { intros i a H. unfold fresh_axes in H. apply filter_In in H as [H E]. split; [eapply enumerate_In; eauto|].
      intros X. apply label_mem_In in X. rewrite X in E. discriminate. }
    unfold closed_cooked. cbn [k_init k_reorder k_reduced k_added k_naxes k_final].
    rewrite Eo. split; [|split; [|split; [|split; [|split]]]].
    - unfold lcomp at 1. rewrite existsb_single, singles_existsb. destruct (singles gl); [reflexivity|]. cbn [negb]. f_equal.
      rewrite <- Eo. rewrite <- (Permutation_length (order_after_perm _ _ _ _ HR)). unfold all_axes. rewrite map_app.
      rewrite <- (map_length env (concat lcomp)). rewrite firstn_exact. rewrite Ecl, !map_map. apply map_ext_in.
      intros a Ha. apply Henv. auto.
    - rewrite Ecl. rewrite map_map.
      assert (Ep : map (fun a => pos_in (map axis_of (concat gl)) (axis_of a)) order = map (place (concat gl)) order).
      { apply map_ext_in. intros a Ha. apply place_pos; auto. }
      rewrite Ep.
      assert (Hndl : NoDup (concat gl)) by (eapply gl_NoDup; eauto).
      assert (Hpp : Permutation (concat gl) order).
      { pose proof (order_after_perm _ _ _ _ HR) as Hp. rewrite Eo, Ecl in Hp.
        apply NoDup_Permutation; auto.
        - apply (NoDup_map_inv axis_of). eapply Permutation_NoDup; [exact Hp|]. rewrite <- Ecl. apply HW.
        - intros a. split; intros Ha; [|auto].
          assert (X : In (axis_of a) (map axis_of order)) by (eapply Permutation_in; [exact Hp|apply in_map; auto]).
          apply in_map_iff in X as [b [E Hb]]. replace a with b; auto. }
      assert (Eiff : map (place (concat gl)) order = seq 0 (length (map (place (concat gl)) order)) <-> order = concat gl).
      { rewrite map_length. split; intros E.
        - assert (E' : map axis_of order = map axis_of (concat gl)).
          { apply (map_pos_inj (map axis_of (concat gl))).
            - intros a Ha. apply in_map_iff in Ha as [b [<- Hb]]. apply in_map; auto.
            - apply incl_refl.
            - rewrite map_pos_seq by (rewrite <- Ecl; apply HW). rewrite map_map, Ep, E, map_length, (Permutation_length Hpp). reflexivity. }
          apply (map_inj_on axis_of Lam); auto. intros a Ha; auto.
        - rewrite E. rewrite <- (map_length axis_of), <- map_pos_seq by (rewrite <- Ecl; apply HW). rewrite map_map. apply map_ext_in.
          intros a Ha. symmetry. apply place_pos; auto. }
      destruct (list_eq_dec Nat.eq_dec _ _) as [E|E]; destruct (list_eq_dec label_eq_dec _ _) as [E'|E']; auto; exfalso; tauto.
    - rewrite Ek, Em, !map_length. reflexivity.
    - rewrite Eadd, map_map. apply map_ext_in. intros [i a] Hia. rewrite Henv; auto. apply Hincr. eapply Hnewin; eauto.
    - intros Hne. rewrite Eadd, !map_length.
      assert (Hm : missing gl gr = []).
      { destruct (fresh_axes gl gr) as [|[i a] nx] eqn:En; [contradiction|].
        assert (Hwr : w = Repeating).
        { destruct (Hnewin i a (or_introl eq_refl)) as [Ha Hb].
          destruct w; auto; exfalso; apply Hb, (in_axes_gl U HU pattern L R e Hr Hd); auto;
            eapply no_new; eauto; try discriminate; rewrite <- concat_map; apply in_map; auto. }
        apply missing_nil. intros b Hb. apply (in_axes_gr U HU pattern L R e Hr Hd); auto.
        eapply none_missing; eauto; [rewrite Hwr; discriminate|]. rewrite <- concat_map. apply in_map; auto. }
      rewrite Hm, app_nil_r. unfold fresh_axes, enumerate.
      rewrite (filter_enumerate_length (fun a => negb (existsb (label_eqb a) (concat gl)))). unfold kept.
      generalize (concat gr) as l. induction l as [|a l IH]; cbn [filter]; auto.
      destruct (existsb (label_eqb a) (concat gl)); cbn [negb length]; lia.
    - unfold rcomp at 1. rewrite existsb_single, singles_existsb. destruct (singles gr); [reflexivity|]. cbn [negb]. f_equal.
      unfold gshape, rcomp. rewrite !map_map. apply map_ext_in. intros g Hgin.
      apply (prod_labels Lam); auto. intros a Ha. apply Hincr, in_concat. eauto.
  Qed.
End Cooked.

Section Run.
  Context (U : unicode) (HU : unicode_ok U) (o : orders) (Ho : orders_ok o).
  Context (pattern : pystr) (sizes : list (pystr * Z)) (sh : list nat).
  Context (w : role) (L R : expr) (e : nat) (len : label -> nat).
  Context (Hns : NoDup (map fst sizes)) (Hres : no_reserved sizes) (Hok : call_ok U w pattern sizes sh L R e len).
  Notation gl := (left_groups e L).
  Notation gr := (right_groups e L R).

  Lemma bind_eq {A B} (m m' : result A) (f g : A -> result B) : m = m' -> (forall a, f a = g a) -> bind m f = bind m' g.
  Proof. intros <- H. destruct m; cbn; auto. Qed.

  Lemma foldM_one {A B} (f : A -> B -> result A) c a : foldM f [c] a = f a c.
  Proof. cbn [foldM]. destruct (f a c); reflexivity. Qed.

  Lemma foldM_map {A B C} (f : A -> B -> result A) (g : C -> B) l a : foldM f (map g l) a = foldM (fun a c => f a (g c)) l a.
  Proof. revert a. induction l as [|c l IH]; intros a; cbn [map foldM]; auto. apply bind_ext. intros b _. apply IH. Qed.

  Lemma seq_nil k n : seq k n = [] <-> n = 0.
  Proof. destruct n; split; intros; auto; discriminate. Qed.

  Lemma api_runs {T} (B : backend T Z) rd t : runs_as rd w -> b_shape B t = map Z.of_nat sh ->
    api_reduce U o int_ops B (One t) pattern rd sizes = foldM (perform B rd) (lib_calls gl gr len) t.
  Proof.
    intros Hw Hsh. apply runs_as_role in Hw. unfold api_reduce. rewrite (proj2 (check_kwargs_iff sizes)) by exact Hres. cbn [bind stack_input].
    destruct (cooked_known U HU o Ho pattern (op_of rd) sizes sh w L R e len Hns Hw Hok) as [r [k [E1 [E2 [K1 [K2 [K3 [K4 [K5 K6]]]]]]]]].
    rewrite Hsh, map_length, E1. cbn [bind]. unfold apply_recipe. rewrite Hsh, E2. cbn [bind]. unfold apply_cooked.
    unfold lib_calls. rewrite K1, K2, K3, K4, K6. rewrite foldM_app.
    apply bind_eq; [destruct (singles gl); [reflexivity|rewrite foldM_one; reflexivity]|]. intros t1. rewrite foldM_app.
    apply bind_eq; [destruct (list_eq_dec label_eq_dec _ _); [reflexivity|rewrite foldM_one; reflexivity]|]. intros t2. rewrite foldM_app.
    apply bind_eq; [destruct (missing gl gr); [reflexivity|rewrite foldM_one; reflexivity]|]. intros t3. rewrite foldM_app.
    apply bind_eq.
    { destruct (fresh_axes gl gr) as [|n ns] eqn:En; [reflexivity|]. rewrite K5 by discriminate. cbn [map].
      rewrite foldM_one. cbn [perform map]. f_equal. destruct n as [i a]. f_equal. rewrite map_map. apply map_ext. intros [j b]. reflexivity. }
    intros t4. destruct (singles gr); [reflexivity|rewrite foldM_one; reflexivity].
  Qed.

  Lemma xp_runs {T} (X : array_ns T) rd t : runs_as rd w -> xp_shape X t = map Z.of_nat sh ->
    aa_reduce U o X (One t) pattern rd sizes = foldM (perform_xp X rd) (lib_calls gl gr len) t.
  Proof.
    intros Hw Hsh. apply runs_as_role in Hw. unfold aa_reduce. rewrite (proj2 (check_kwargs_iff sizes)) by exact Hres. cbn [bind stack_input_array_api].
    destruct (cooked_known U HU o Ho pattern (op_of rd) sizes sh w L R e len Hns Hw Hok) as [r [k [E1 [E2 [K1 [K2 [K3 [K4 [K5 K6]]]]]]]]].
    rewrite Hsh, map_length, E1. cbn [bind]. unfold apply_recipe_array_api. rewrite Hsh, E2. cbn [bind]. unfold apply_cooked_array_api.
    unfold lib_calls. rewrite K1, K2, K3, K4, K6. rewrite foldM_app.
    apply bind_eq; [destruct (singles gl); [reflexivity|rewrite foldM_one; reflexivity]|]. intros t1. rewrite foldM_app.
    apply bind_eq; [destruct (list_eq_dec label_eq_dec _ _); [reflexivity|rewrite foldM_one; reflexivity]|]. intros t2. rewrite foldM_app.
    apply bind_eq.
    { destruct (missing gl gr) as [|m ms]; [reflexivity|]. rewrite foldM_one. cbn [perform_xp]. cbn [length seq].
      destruct rd as [s|f]; [|reflexivity]. destruct (str_mem s reductions); reflexivity. }
    intros t3. rewrite foldM_app. apply bind_eq.
    { destruct (fresh_axes gl gr) as [|n ns]; [reflexivity|]. rewrite foldM_one. unfold perform_xp. rewrite !foldM_map.
      assert (E : map (fun '(i, a) => (i, Z.of_nat (len a))) (n :: ns) = map (fun '(i, a) => (i, Z.of_nat a)) (map (fun '(i, a) => (i, len a)) (n :: ns))).
      { rewrite map_map. apply map_ext. intros [i a]. reflexivity. }
      destruct (map (fun '(i, a) => (i, Z.of_nat (len a))) (n :: ns)) as [|c cs] eqn:Ec; [destruct n; discriminate|]. rewrite E.
      rewrite !foldM_map.
      apply bind_eq; [|intros t'; apply bind_eq; [|reflexivity]].
      - generalize (n :: ns) as l, t3 as u. induction l as [|[i a] l IH]; intros u; cbn [foldM]; auto. apply bind_ext. intros b _. apply IH.
      - generalize (n :: ns) as l, (xp_shape X t') as u. induction l as [|[i a] l IH]; intros u; cbn [foldM]; auto. apply bind_ext. intros b _. apply IH. }
    intros t4. destruct (singles gr); [reflexivity|rewrite foldM_one; reflexivity].
  Qed.
End Run.

(** nothing is run exactly for identity patterns without groups *)
Lemma lib_calls_nil gl gr len :
  (lib_calls gl gr len = [] <-> gl = gr /\ forall g, In g gl -> length g = 1).
Proof.
  unfold lib_calls. split.
  - intros H. apply app_eq_nil in H as [H1 H]. apply app_eq_nil in H as [H2 H]. apply app_eq_nil in H as [H3 H]. apply app_eq_nil in H as [H4 H5].
    destruct (singles gl) eqn:S1; [|discriminate]. destruct (singles gr) eqn:S2; [|discriminate].
    destruct (missing gl gr) eqn:Em; [|discriminate]. destruct (fresh_axes gl gr) eqn:En; [|discriminate].
    destruct (list_eq_dec label_eq_dec _ _) as [E|]; [|discriminate]. rewrite app_nil_r in E.
    assert (Hinc : incl (concat gr) (concat gl)).
    { intros a Ha. destruct (existsb (label_eqb a) (concat gl)) eqn:X; [apply label_mem_In; auto|]. exfalso.
      apply In_nth_error in Ha as [i Hi].
      assert (G : In (i, a) (fresh_axes gl gr)); [|rewrite En in G; destruct G].
      unfold fresh_axes. apply filter_In. rewrite X. split; auto.
      clear - Hi. unfold enumerate. replace i with (0 + i) by lia. revert i Hi. generalize 0 as k. generalize (concat gr) as l.
      induction l as [|b l IH]; intros k i Hi; [destruct i; discriminate|]. destruct i as [|i]; cbn in *.
      - injection Hi as ->. left. f_equal. lia.
      - right. replace (k + S i) with (S k + i) by lia. auto. }
    rewrite (kept_all _ _ Hinc) in E.
    assert (S1' : forall g, In g gl -> length g = 1) by (intros g Hg; unfold singles in S1; rewrite forallb_forall in S1; apply Nat.eqb_eq, S1, Hg).
    assert (S2' : forall g, In g gr -> length g = 1) by (intros g Hg; unfold singles in S2; rewrite forallb_forall in S2; apply Nat.eqb_eq, S2, Hg).
    split; auto. clear - E S1' S2'. revert gr E S2'. induction gl as [|g gl IH]; intros gr E S2'.
    + destruct gr as [|h gr]; auto. specialize (S2' h (or_introl eq_refl)). destruct h; discriminate.
    + pose proof (S1' g (or_introl eq_refl)) as Eg. destruct g as [|a [|? ?]]; try discriminate.
      destruct gr as [|h gr]; [discriminate|]. pose proof (S2' h (or_introl eq_refl)) as Eh. destruct h as [|b [|? ?]]; try discriminate.
      cbn in E. injection E as -> E. f_equal. apply IH; auto; intros g Hg; [apply S1'|apply S2']; right; auto.
  - intros [<- H]. assert (S1 : singles gl = true) by (unfold singles; apply forallb_forall; intros g Hg; apply Nat.eqb_eq; auto).
    assert (Em : missing gl gl = []) by (apply missing_nil, incl_refl).
    assert (Ek : kept gl gl = concat gl) by (apply kept_all, incl_refl).
    assert (En : fresh_axes gl gl = []).
    { unfold fresh_axes. assert (G : forall l k, incl l (concat gl) -> filter (fun '(_, a) => negb (existsb (label_eqb a) (concat gl))) (enumerate_from k l) = []); [|apply G, incl_refl].
      induction l as [|a l IH]; intros k Hi; auto. cbn [enumerate_from filter]. rewrite (proj2 (label_mem_In a (concat gl))) by (apply Hi; left; auto).
      cbn [negb]. apply IH. intros b Hb; apply Hi; right; auto. }
    rewrite S1, Em, Ek, En, app_nil_r. destruct (list_eq_dec label_eq_dec _ _) as [_|X]; [reflexivity|exfalso; apply X, app_nil_r].
Qed.
