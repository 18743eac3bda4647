(** * Scalar products: repeat and sum are adjoint *)
From Coq Require Import Permutation.
From Verif Require Import Py Tensor ListFacts TensorFacts SpecSem SpecGrammar SpecPattern SpecOps SpecElements SpecAdjoint Parsing Recipe Ops Backends Api StepFacts FrontFacts FrontFacts2 FrontFacts3 MainFacts ReduceFacts MainFacts3 CallFacts RedFacts Laws ApiFacts ApiFacts2 ApiFacts3 ApiFacts6 EinsumFacts3 EinsumLaws2.

Section Filled.
  Context {A : Type}.
  Lemma filled len gs (g : (label -> nat) -> A) : NoDup (concat gs) ->
    (forall i j, (forall a, In a (concat gs) -> i a = j a) -> g i = g j) ->
    exists w, wf w /\ shp w = gshape len gs /\ forall ix, within len ix (concat gs) -> get w (gindex len ix gs) = Some (g ix).
  Proof.
    intros Hn Hg. exists (mkT (gshape len gs) (map (fun v => g (assign label_eqb (fun _ => 0) (concat gs) v)) (indices (map len (concat gs))))).
    split; [unfold wf; cbn; rewrite map_length, indices_length, prodn_gshape; reflexivity|]. split; [reflexivity|].
    intros ix Hi. unfold get. cbn [shp dat]. rewrite inb_gindex by auto. rewrite ravel_gindex.
    erewrite map_nth_error; [|apply indices_nth, inb_map; auto]. f_equal. apply Hg. intros a Ha.
    unfold assign. destruct (index_of_In label_eqb label_eqb_eq a _ Ha) as [k Ek]. rewrite Ek.
    apply index_of_Some in Ek; [|apply label_eqb_eq].
    rewrite (nth_map_lt _ _ k 0 a) by (apply nth_error_Some; congruence). rewrite (nth_error_nth _ _ a Ek). reflexivity.
  Qed.
End Filled.

Section Dot.
  Context {A : Type} (add mul : A -> A -> A) (zero : A) (Hsp : sums_and_products add mul zero).
  Notation sum := (fold_right add zero).
  Notation dot := (inner add mul zero).
  Let add_comm := sp_comm _ _ _ Hsp.
  Let add_assoc := sp_assoc _ _ _ Hsp.
  Let add_zero := sp_zero _ _ _ Hsp.
  Definition val (o : option A) : A := match o with Some a => a | None => zero end.

  Lemma sum_app l m : sum (l ++ m) = add (sum l) (sum m).
  Proof. induction l as [|a l IH]; cbn; [symmetry; apply add_zero|]. rewrite IH. apply add_assoc. Qed.
  Lemma sum_flat_map {X} (f : X -> list A) l : sum (flat_map f l) = sum (map (fun i => sum (f i)) l).
  Proof. induction l as [|a l IH]; [reflexivity|]. cbn. rewrite sum_app, IH. reflexivity. Qed.
  Lemma mul_sum {X} a (f : X -> A) l : sum (map (fun i => mul a (f i)) l) = mul a (sum (map f l)).
  Proof.
    induction l as [|b l IH]; cbn; [symmetry; apply (sp_mul_zero _ _ _ Hsp)|]. rewrite IH. symmetry. apply (sp_distr _ _ _ Hsp).
  Qed.

  Lemma dot_groups gs len x y ix : NoDup (concat gs) -> wf x -> wf y -> shp x = gshape len gs -> shp y = gshape len gs ->
    dot x y = sum (map (fun v => mul (val (get x (gindex len (assign label_eqb ix (concat gs) v) gs))) (val (get y (gindex len (assign label_eqb ix (concat gs) v) gs))))
                       (indices (map len (concat gs)))).
  Proof.
    intros Hn Wx Wy Sx Sy. unfold inner. f_equal.
    assert (E : forall l m : list A, map Some l = map Some m -> l = m).
    { induction l as [|a l IH]; intros [|b m] H; cbn in H; try discriminate; auto. inversion H; subst. f_equal; auto. }
    apply E. rewrite (flat_data gs len (t_zip mul x y) ix) by (auto; apply t_zip_wf; auto; congruence). rewrite map_map.
    apply map_ext_in. intros v Hv. apply indices_In in Hv.
    pose proof (within_assign label_eqb label_eqb_eq len ix _ v Hn Hv) as W.
    rewrite t_zip_get by (auto; congruence).
    destruct (get_wf x (gindex len (assign label_eqb ix (concat gs) v) gs) Wx) as [a Ha]; [rewrite Sx; apply inb_gindex; auto|].
    destruct (get_wf y (gindex len (assign label_eqb ix (concat gs) v) gs) Wy) as [b Hb]; [rewrite Sy; apply inb_gindex; auto|].
    rewrite Ha, Hb. reflexivity.
  Qed.

  (** [w] holds the sums of [z] over the axes that only [gr] has *)
  Definition sums gr gl len z w : Prop :=
    wf w /\ shp w = gshape len gl /\ forall ix, within len ix (concat gl) -> val (get w (gindex len ix gl)) = sum (map val (elements z len gr (missing gr gl) ix)).

  Lemma sums_of red gr gl len z w : (forall vs, red vs = Ok (sum vs)) -> reduces red gr gl len z w -> sums gr gl len z w.
  Proof.
    intros Hr [Hw [Hs Hg]]. split; [|split]; auto. intros ix Hi. destruct (Hg ix Hi) as [vs [v [E [Ev ->]]]]. rewrite E, map_map, map_id.
    rewrite Hr in Ev. inversion Ev. reflexivity.
  Qed.
  Lemma sums_of_moves gr gl len z w : missing gr gl = [] -> moves gr gl len z w -> sums gr gl len z w.
  Proof.
    intros E [Hw [Hs Hg]]. split; [|split]; auto. intros ix Hi. unfold elements. rewrite E. cbn. rewrite Hg.
    - rewrite add_comm, add_zero. reflexivity.
    - intros a Ha. apply Hi. apply in_app_or in Ha as [Ha|Ha]; auto. apply (missing_nil gr gl); auto.
  Qed.

  Lemma adjoint gl gr len x y z w : NoDup (concat gl) -> NoDup (concat gr) -> incl (concat gl) (concat gr) ->
    wf x -> shp x = gshape len gl -> wf z -> shp z = gshape len gr ->
    moves gl gr len x y -> sums gr gl len z w -> dot y z = dot x w.
  Proof.
    intros Nl Nr Hi Wx Sx Wz Sz [Wy [Sy Gy]] [Ww [Sw Gw]].
    rewrite (dot_groups gr len y z (fun _ => 0)), (dot_groups gl len x w (fun _ => 0)) by auto.
    set (ms := missing gr gl).
    assert (Nm : NoDup ms) by (apply NoDup_filter; auto).
    assert (D : forall a, In a (concat gl) -> ~ In a ms) by (intros a Ha Hm; apply in_missing in Hm; tauto).
    assert (P : Permutation (concat gr) (concat gl ++ ms)).
    { apply NoDup_Permutation; auto.
      - apply NoDup_app_iff; auto.
      - intros a. rewrite in_app_iff. unfold ms. rewrite in_missing. destruct (in_dec label_eq_dec a (concat gl)); intuition. }
    etransitivity.
    { eapply sum_permutation; [exact add_comm|exact add_assoc|].
      apply (reorder_map (fun i => mul (val (get y (gindex len i gr))) (val (get z (gindex len i gr)))) len (fun _ => 0) _ _ Nr P).
      intros i j E. rewrite !(gindex_same len i j gr) by auto. reflexivity. }
    rewrite map_app, indices_app, flat_map_concat_map, concat_map, map_map, <- flat_map_concat_map, sum_flat_map. f_equal.
    apply map_ext_in. intros i Hin. apply indices_In in Hin.
    pose proof (inb_length _ _ Hin) as Li. rewrite map_length in Li.
    pose proof (within_assign label_eqb label_eqb_eq len (fun _ => 0) _ i Nl Hin) as Wi.
    rewrite Gw by auto. unfold elements. rewrite !map_map, <- mul_sum. f_equal.
    apply map_ext_in. intros j Hj. apply indices_In in Hj.
    pose proof (within_assign label_eqb label_eqb_eq len (assign label_eqb (fun _ => 0) (concat gl) i) _ j Nm Hj) as Wj.
    assert (E : forall a, assign label_eqb (fun _ => 0) (concat gl ++ ms) (i ++ j) a = assign label_eqb (assign label_eqb (fun _ => 0) (concat gl) i) ms j a).
    { intros a. apply (assign_app label_eqb label_eqb_eq); auto. }
    assert (Eg : forall gs, gindex len (assign label_eqb (fun _ => 0) (concat gl ++ ms) (i ++ j)) gs = gindex len (assign label_eqb (assign label_eqb (fun _ => 0) (concat gl) i) ms j) gs).
    { intros gs. apply gindex_same. auto. }
    assert (El : gindex len (assign label_eqb (fun _ => 0) (concat gl ++ ms) (i ++ j)) gl = gindex len (assign label_eqb (fun _ => 0) (concat gl) i) gl).
    { apply gindex_same. intros a Ha. rewrite E. apply (assign_out label_eqb label_eqb_eq). auto. }
    rewrite Gy.
    - rewrite El, Eg. reflexivity.
    - assert (W : forall a, In a (concat gr) -> assign label_eqb (fun _ => 0) (concat gl ++ ms) (i ++ j) a < len a).
      { intros a Ha. rewrite E. destruct (in_dec label_eq_dec a (concat gl)) as [Hl|Hl].
        - rewrite (assign_out label_eqb label_eqb_eq) by auto. auto.
        - apply Wj. unfold ms. apply in_missing. auto. }
      intros a Ha. apply W. apply in_app_or in Ha as [Ha|Ha]; auto.
  Qed.

  (** moving two tensors in the same way keeps their scalar product *)
  Lemma moved_dot gl gr len x x' z z' : NoDup (concat gl) -> NoDup (concat gr) -> incl (concat gl) (concat gr) -> incl (concat gr) (concat gl) ->
    wf x -> shp x = gshape len gl -> wf z -> shp z = gshape len gl -> moves gl gr len x x' -> moves gl gr len z z' -> dot x' z' = dot x z.
  Proof.
    intros Nl Nr H1 H2 Wx Sx Wz Sz Mx Mz. apply (adjoint gl gr len x x' z' z); auto; try apply Mz.
    apply sums_of_moves; [apply missing_nil; auto|]. apply moves_sym; auto.
  Qed.
End Dot.

Section Calls.
  Context {A : Type} (r : runtime A) (Hok : runtime_ok r).
  Context (add mul : A -> A -> A) (zero : A) (Hsp : sums_and_products add mul zero).
  Context (Hsum : forall vs, rt_red r (lit "sum") vs = Ok (fold_right add zero vs)).
  Notation U := (rt_unicode r).
  Notation f := (rt_framework r).
  Notation inner := (inner add mul zero).
  Implicit Types (x y z : tensor A).
  Let HU : unicode_ok U := ro_unicode r Hok.

  Lemma sum_splits : splits (rt_red r (lit "sum")).
  Proof.
    intros n xss H. pose proof (fold_red_splits add zero (sp_assoc _ _ _ Hsp) (sp_zero _ _ _ Hsp) n xss H) as E. unfold fold_red in E. rewrite Hsum, E.
    rewrite (mapM_ext_in (rt_red r (lit "sum")) (fun l => Ok (fold_right add zero l))) by (intros; apply Hsum).
    destruct (mapM _ xss); cbn [bind]; auto.
  Qed.
  Lemma sum_reduction : str_mem (lit "sum") reductions = true.
  Proof. reflexivity. Qed.

  Lemma repeat_sum x y z w p p' s s' L R e len : NoDup (map fst s) -> NoDup (map fst s') -> wf x -> wf z -> shp z = shp y ->
    repeat_sizes_ok r p s ->
    repeat_ r (One x) p s = Ok y -> reduce r (One z) p' (RStr (lit "sum")) s' = Ok w ->
    reads U p L R -> reads U p' R L -> rank_fits L (length (shp x)) e ->
    fits len (left_groups e L) (right_groups e L R) (shp x) s ->
    fits len (left_groups e R) (right_groups e R L) (shp y) s' ->
    inner y z = inner x w.
  Proof.
    intros Hn Hn' Hw Hwz Hsz Hs H H' Hr Hr' Hk Hf Hf'.
    destruct (repeat_at r Hok x p s L R e len y Hn Hw Hs H Hr Hk Hf) as [Hc Hm].
    destruct (reduce_sound r Hok z p' _ s' w Hn' Hwz sum_reduction H') as [_ [L1 [R1 [e1 [len1 Hc1]]]]].
    destruct (reads_fun U HU p' L1 R1 R L (co_reads _ _ _ _ _ _ _ _ _ Hc1) Hr') as [-> ->].
    pose proof (flip_dots r _ _ _ _ _ _ _ _ _ _ _ _ _ _ Hc Hc1) as Hd.
    destruct (co_ident _ _ _ _ _ _ _ _ _ Hc) as [N1 _].
    rewrite (right_as_left e L R) in Hm by auto.
    assert (Hsy : shp y = gshape len (left_groups e R)) by apply Hm.
    assert (Hk' : rank_fits R (length (shp z)) e).
    { rewrite Hsz, Hsy. eapply next_rank; eauto; [eapply call_flat; eauto|]. rewrite <- Hd. apply (rank_zero _ _ _ Hk). }
    rewrite <- Hsz in Hf'.
    destruct (reduce_at r Hok z p' _ s' R L e len w Hn' Hwz sum_reduction (fun _ => sum_splits) H' Hr' Hk' Hf') as [Hc' [M1 M2]].
    rewrite (right_as_left' e R L) in M1, M2 by auto.
    assert (Hgl : NoDup (concat (left_groups e L))) by (eapply (call_gl_NoDup U p s x); eauto).
    assert (Hgr : NoDup (concat (left_groups e R))) by (eapply (call_gl_NoDup U p' s' z); eauto).
    assert (Hi : incl (concat (left_groups e L)) (concat (left_groups e R))).
    { rewrite <- (right_as_left e L R) by auto. apply missing_nil. eapply no_missing; eauto. discriminate. }
    apply (adjoint add mul zero Hsp (left_groups e L) (left_groups e R) len x y z w); auto; try congruence; [symmetry; apply Hf|].
    destruct (missing (left_groups e R) (left_groups e L)) as [|a l] eqn:E.
    - apply (sums_of_moves add mul zero Hsp); auto.
    - eapply sums_of; [exact Hsum|]. apply M2. discriminate.
  Qed.

  Lemma sums_exist gr gl len z : NoDup (concat gr) -> NoDup (concat gl) -> incl (concat gl) (concat gr) -> wf z -> shp z = gshape len gr ->
    exists w, reduces (rt_red r (lit "sum")) gr gl len z w.
  Proof.
    intros Nr Nl Hi Wz Sz.
    destruct (filled len gl (fun ix => fold_right add zero (map (val zero) (elements z len gr (missing gr gl) ix))) Nl) as [w [Hw [Hs Hg]]].
    { intros i j E. f_equal. f_equal. unfold elements. apply map_ext_in. intros v _. f_equal. apply gindex_same. intros a Ha.
      unfold assign. destruct (index_of label_eqb a (missing gr gl)) eqn:X; [reflexivity|]. apply E.
      destruct (in_dec label_eq_dec a (concat gl)) as [Y|Y]; auto. exfalso.
      destruct (index_of_In label_eqb label_eqb_eq a (missing gr gl)) as [k Ek]; [apply in_missing; auto|congruence]. }
    exists w. split; [|split]; auto. intros ix Hix. rewrite Hg by auto. exists (map (val zero) (elements z len gr (missing gr gl) ix)). eexists. split; [|split; [apply Hsum|reflexivity]].
    rewrite map_map. rewrite <- (map_id (elements _ _ _ _ _)) at 1. apply map_ext_in. intros o Ho. unfold elements in Ho. apply in_map_iff in Ho as [v [<- Hv]].
    apply indices_In in Hv.
    assert (Nm : NoDup (missing gr gl)) by (apply NoDup_filter; auto).
    destruct (get_wf z (gindex len (assign label_eqb ix (missing gr gl) v) gr) Wz) as [a ->]; [|reflexivity].
    rewrite Sz. apply inb_gindex. intros a Ha. destruct (in_dec label_eq_dec a (concat gl)) as [Hl|Hl].
    - rewrite (assign_out label_eqb label_eqb_eq); [apply Hix; auto|]. rewrite in_missing; tauto.
    - apply (within_assign label_eqb label_eqb_eq len ix _ v); auto. apply in_missing; auto.
  Qed.

  Lemma moves_exist gr gl len z : NoDup (concat gl) -> incl (concat gl) (concat gr) -> incl (concat gr) (concat gl) -> wf z -> shp z = gshape len gr ->
    exists w, moves gr gl len z w.
  Proof.
    intros Nl Hi Hi' Wz Sz.
    destruct (filled len gl (fun ix => val zero (get z (gindex len ix gr))) Nl) as [w [Hw [Hs Hg]]].
    { intros i j E. f_equal. f_equal. apply gindex_same. auto. }
    exists w. split; [|split]; auto. intros ix Hix. rewrite Hg by (intros a Ha; apply Hix, in_or_app; auto).
    destruct (get_wf z (gindex len ix gr) Wz) as [a ->]; [|reflexivity].
    rewrite Sz. apply inb_gindex. intros a Ha. apply Hix, in_or_app; auto.
  Qed.

  (** the gradient of [repeat_]: the sum over the flipped pattern *)
  Lemma repeat_backward x y z p p' s s' L R e len : NoDup (map fst s) -> wf x -> wf z -> shp z = shp y ->
    repeat_sizes_ok r p s -> has_reduction f (lit "sum") = true ->
    repeat_ r (One x) p s = Ok y ->
    reads U p L R -> reads U p' R L -> rank_fits L (length (shp x)) e ->
    fits len (left_groups e L) (right_groups e L R) (shp x) s ->
    plain L -> plain R -> ~ grouped_dots R -> gives_all R L len s' -> no_reserved s' ->
    exists w, reduce r (One z) p' (RStr (lit "sum")) s' = Ok w /\ shp w = shp x /\ inner y z = inner x w.
  Proof.
    intros Hn Hw Hwz Hsz Hs Hh H Hr Hr' Hk Hf HpL HpR Hg Ha Hres.
    destruct (repeat_at r Hok x p s L R e len y Hn Hw Hs H Hr Hk Hf) as [Hc Hm].
    destruct (co_ident _ _ _ _ _ _ _ _ _ Hc) as [N1 [K1 K2]].
    pose proof (mid_dots r _ _ _ _ _ _ _ _ Hc ltac:(discriminate) HpR) as Hd.
    rewrite (right_as_left e L R) in Hm by auto.
    assert (Hsy : shp y = gshape len (left_groups e R)) by apply Hm.
    assert (Hgr0 : no_grouped R) by (apply no_grouped_iff; auto; eapply keys_NoDup_L; eauto).
    assert (Hc' : call_ok U Reducing p' s' (shp z) R L e len).
    { rewrite Hsz. apply full_call_ok; auto.
      - split; auto.
      - rewrite Hd; auto.
      - rewrite Hsy. eapply next_rank; eauto. rewrite <- Hd. apply (rank_zero _ _ _ Hk).
      - intros k n Hin. apply (proj1 (proj2 Hf) k n). rewrite (right_as_left e L R) by auto. rewrite (right_as_left' e R L) in Hin by auto.
        apply in_app_or in Hin. apply in_or_app. tauto. }
    assert (Hgl : NoDup (concat (left_groups e L))) by (eapply (call_gl_NoDup U p s x); eauto).
    assert (Hgr : NoDup (concat (left_groups e R))) by (eapply (call_gl_NoDup U p' s' z); eauto).
    assert (Hi : incl (concat (left_groups e L)) (concat (left_groups e R))).
    { rewrite <- (right_as_left e L R) by auto. apply missing_nil. eapply no_missing; eauto. discriminate. }
    assert (Hshx : shp x = gshape len (left_groups e L)) by (symmetry; apply Hf).
    assert (Hshz : shp z = gshape len (left_groups e R)) by congruence.
    assert (X : exists w, ((missing (left_groups e R) (left_groups e L) = [] /\ moves (left_groups e R) (left_groups e L) len z w) \/
      (missing (left_groups e R) (left_groups e L) <> [] /\ has_reduction f (lit "sum") = true /\ reduces (rt_red r (lit "sum")) (left_groups e R) (left_groups e L) len z w)) /\
      sums add zero (left_groups e R) (left_groups e L) len z w).
    { destruct (missing (left_groups e R) (left_groups e L)) as [|a l] eqn:E.
      - destruct (moves_exist (left_groups e R) (left_groups e L) len z) as [w Mw]; auto; [apply missing_nil; auto|].
        exists w. split; [left; auto|]. apply (sums_of_moves add mul zero Hsp); auto.
      - destruct (sums_exist (left_groups e R) (left_groups e L) len z) as [w Mw]; auto.
        exists w. split; [right; split; [discriminate|auto]|]. eapply sums_of; [exact Hsum|]. exact Mw. }
    destruct X as [w [Ow Sw]]. exists w. split; [|split].
    - apply (reduce_iff r Hok z p' _ s' R L e len w (ga_distinct _ _ _ _ Ha) Hwz Hres sum_reduction (fun _ => sum_splits)); [discriminate|exact Hc'|].
      rewrite (right_as_left' e R L) by auto. exact Ow.
    - rewrite Hshx. apply Sw.
    - apply (adjoint add mul zero Hsp (left_groups e L) (left_groups e R) len x y z w); auto.
  Qed.

  (** the gradient of a sum: copies *)
  Lemma sum_backward z w g p p' s s' L R e len : NoDup (map fst s') -> wf z -> wf g -> shp g = shp w ->
    reduce r (One z) p' (RStr (lit "sum")) s' = Ok w ->
    reads U p' R L -> reads U p L R -> rank_fits R (length (shp z)) e ->
    fits len (left_groups e R) (right_groups e R L) (shp z) s' ->
    plain L -> plain R -> has_dots L = has_dots R -> ~ grouped_dots L ->
    gives_all L R len s -> incl (keys R) (keys L ++ map fst s) -> no_reserved s ->
    exists y, repeat_ r (One g) p s = Ok y /\ shp y = shp z /\ inner y z = inner g w.
  Proof.
    intros Hn' Hwz Hwg Hsg H' Hr' Hr Hk' Hf' HpL HpR Hd Hg Ha Hkeys Hres.
    destruct (reduce_at r Hok z p' _ s' R L e len w Hn' Hwz sum_reduction (fun _ => sum_splits) H' Hr' Hk' Hf') as [Hc' [M1 M2]].
    destruct (co_ident _ _ _ _ _ _ _ _ _ Hc') as [N1 K1].
    rewrite (right_as_left' e R L) in M1, M2 by auto.
    assert (Hgr : NoDup (concat (left_groups e R))) by (eapply (call_gl_NoDup U p' s' z); eauto).
    assert (Sw : sums add zero (left_groups e R) (left_groups e L) len z w).
    { destruct (missing (left_groups e R) (left_groups e L)) as [|a l] eqn:E.
      - apply (sums_of_moves add mul zero Hsp); auto.
      - eapply sums_of; [exact Hsum|]. apply M2. discriminate. }
    assert (Hgr0 : no_grouped L) by (apply no_grouped_iff; auto; eapply keys_NoDup_L; eauto).
    assert (Hshw : shp w = gshape len (left_groups e L)) by apply Sw.
    assert (Hc : call_ok U Repeating p s (shp g) L R e len).
    { rewrite Hsg. apply full_call_ok; auto.
      - split; auto.
      - rewrite Hd; auto.
      - rewrite Hshw. eapply next_rank; eauto. rewrite Hd. apply (rank_zero _ _ _ Hk').
      - intros k n Hin. apply (proj1 (proj2 Hf') k n). rewrite (right_as_left e L R) in Hin by auto. rewrite (right_as_left' e R L) by auto.
        apply in_app_or in Hin. apply in_or_app. tauto. }
    assert (Hgl : NoDup (concat (left_groups e L))) by (eapply (call_gl_NoDup U p s g); eauto).
    assert (Hi : incl (concat (left_groups e L)) (concat (left_groups e R))).
    { rewrite <- (right_as_left e L R) by auto. apply missing_nil. eapply no_missing; eauto. discriminate. }
    assert (Hsz : shp z = gshape len (left_groups e R)) by (symmetry; apply Hf').
    assert (X : exists y, moves (left_groups e L) (left_groups e R) len g y).
    { destruct (filled len (left_groups e R) (fun ix => val zero (get g (gindex len ix (left_groups e L)))) Hgr) as [y [Hy [Hs Hgy]]].
      - intros i j E. f_equal. f_equal. apply gindex_same. auto.
      - exists y. split; [|split]; auto. intros ix Hix. rewrite Hgy by (intros a X; apply Hix, in_or_app; auto).
        destruct (get_wf g (gindex len ix (left_groups e L)) Hwg) as [a ->]; [|reflexivity].
        rewrite Hsg, Hshw. apply inb_gindex. intros a X. apply Hix, in_or_app; auto. }
    destruct X as [y My]. exists y. split; [|split].
    - apply (repeat_iff r Hok g p s L R e len y (ga_distinct _ _ _ _ Ha) Hwg Hres Hc). rewrite (right_as_left e L R) by auto. exact My.
    - rewrite Hsz. apply My.
    - apply (adjoint add mul zero Hsp (left_groups e L) (left_groups e R) len g y z w); auto. congruence.
  Qed.

  (** rearranging: the flipped pattern; the same pattern on both sides *)
  Lemma rearrange_backward x y z w p p' s s' L R e len : NoDup (map fst s) -> NoDup (map fst s') -> wf x -> wf z -> shp z = shp y ->
    rearrange r (One x) p s = Ok y -> rearrange r (One z) p' s' = Ok w ->
    reads U p L R -> reads U p' R L -> rank_fits L (length (shp x)) e ->
    fits len (left_groups e L) (right_groups e L R) (shp x) s ->
    fits len (left_groups e R) (right_groups e R L) (shp y) s' ->
    inner y z = inner x w.
  Proof.
    intros Hn Hn' Hw Hwz Hsz H H' Hr Hr' Hk Hf Hf'.
    destruct (rearrange_at r Hok x p s L R e len y Hn Hw H Hr Hk Hf) as [Hc Hm].
    destruct (proj1 (rearrange_accepts r Hok z p' s' Hn' Hwz)) as [_ [L1 [R1 [e1 [len1 Hc1]]]]]; eauto.
    destruct (reads_fun U HU p' L1 R1 R L (co_reads _ _ _ _ _ _ _ _ _ Hc1) Hr') as [-> ->].
    pose proof (flip_dots r _ _ _ _ _ _ _ _ _ _ _ _ _ _ Hc Hc1) as Hd.
    destruct (co_ident _ _ _ _ _ _ _ _ _ Hc) as [N1 [N2 _]].
    rewrite (right_as_left e L R) in Hm by auto.
    assert (Hsy : shp y = gshape len (left_groups e R)) by apply Hm.
    assert (Hk' : rank_fits R (length (shp z)) e).
    { rewrite Hsz, Hsy. eapply next_rank; eauto; [eapply call_flat; eauto|]. rewrite <- Hd. apply (rank_zero _ _ _ Hk). }
    rewrite <- Hsz in Hf'.
    destruct (rearrange_at r Hok z p' s' R L e len w Hn' Hwz H' Hr' Hk' Hf') as [Hc' M].
    rewrite (right_as_left' e R L) in M by auto.
    assert (Hgl : NoDup (concat (left_groups e L))) by (eapply (call_gl_NoDup U p s x); eauto).
    assert (Hgr : NoDup (concat (left_groups e R))) by (eapply (call_gl_NoDup U p' s' z); eauto).
    assert (Hi : incl (concat (left_groups e L)) (concat (left_groups e R))).
    { rewrite <- (right_as_left e L R) by auto. apply missing_nil. eapply no_missing; eauto. discriminate. }
    assert (Hm' : missing (left_groups e R) (left_groups e L) = []).
    { rewrite <- (right_as_left' e R L) by auto. eapply no_missing; eauto. discriminate. }
    apply (adjoint add mul zero Hsp (left_groups e L) (left_groups e R) len x y z w); auto; try congruence; [symmetry; apply Hf|].
    apply (sums_of_moves add mul zero Hsp); auto.
  Qed.

  Lemma rearrange_isometry x x' z z' p s : NoDup (map fst s) -> wf x -> wf z -> shp z = shp x ->
    rearrange r (One x) p s = Ok x' -> rearrange r (One z) p s = Ok z' -> inner x' z' = inner x z.
  Proof.
    intros Hn Wx Wz Sz Hx Hz. destruct (rearrange_moves r Hok x p s x' Hn Wx Hx) as [L [R [e [len [[Hc _] M]]]]].
    assert (Hres : no_reserved s) by (apply (rearrange_accepts r Hok x p s Hn Wx); eauto).
    assert (Hc' := Hc). rewrite <- Sz in Hc'.
    apply (rearrange_iff r Hok z p s L R e len z') in Hz; auto.
    pose proof (co_fits _ _ _ _ _ _ _ _ _ Hc) as Hf. assert (Sx : shp x = gshape len (left_groups e L)) by (symmetry; apply Hf).
    assert (Hgl : NoDup (concat (left_groups e L))) by (eapply (call_gl_NoDup U p s x); eauto).
    assert (Hgr : NoDup (concat (right_groups e L R))) by (eapply (call_gr_NoDup U p s x); eauto).
    destruct (incl_both U HU (OpStr s_rearrange) p s A x Rearranging L R e len eq_refl eq_refl Hc) as [H1 H2].
    apply (moved_dot add mul zero Hsp (left_groups e L) (right_groups e L R) len x x' z z'); auto; congruence.
  Qed.
End Calls.
