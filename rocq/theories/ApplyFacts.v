(** * Applying a recipe to a tensor *)
From Verif Require Import Py Tensor ListFacts TensorFacts SpecSem Parsing Recipe Ops Backends StepFacts ParseFacts RecipeFacts InferFacts.

Record resolved (lcomp rcomp : list (list axis)) (lids rids : list axis) : Prop := {
  rs_weak : weakly_resolved lcomp rcomp lids rids;
  rs_agree : forall a, In a (concat lcomp) -> (In a rids <-> In a (concat rcomp));
  rs_new : reduced_axes_of lcomp rids = [] \/ added_of lcomp rcomp = []
}.

Lemma kept_In lcomp rcomp a : In a (kept_axes_of lcomp rcomp) <-> In a (concat rcomp) /\ In a (concat lcomp).
Proof. unfold kept_axes_of. rewrite filter_In, axis_mem_In. tauto. Qed.
Lemma reduced_In lcomp rids a : In a (reduced_axes_of lcomp rids) <-> In a (concat lcomp) /\ ~ In a rids.
Proof. unfold reduced_axes_of. rewrite filter_In, negb_true_iff, axis_mem_false. tauto. Qed.

Lemma order_after_perm lcomp rcomp lids rids :
  resolved lcomp rcomp lids rids -> Permutation (concat lcomp) (order_after_of lcomp rcomp rids).
Proof.
  intros [[Hndl Hndr Hndi Hlids Hrids Han] Hag _]. apply NoDup_Permutation; auto.
  - unfold order_after_of. apply NoDup_app_iff. split; [apply NoDup_filter; auto|]. split; [apply NoDup_filter; auto|].
    intros a Hk Hr. apply kept_In in Hk as [Hk _]. apply reduced_In in Hr as [Hr1 Hr2].
    apply Hr2. apply Hag; auto.
  - intros a. unfold order_after_of. rewrite in_app_iff, kept_In, reduced_In. split; [|tauto].
    intros Ha. destruct (axis_mem a rids) eqn:E.
    + apply axis_mem_In in E. left; split; auto. apply Hag; auto.
    + apply axis_mem_false in E. auto.
Qed.

Lemma map_pos_seq (l : list axis) : NoDup l -> map (pos_in l) l = seq 0 (length l).
Proof.
  intros Hnd. apply list_ext. intros i. destruct (nth_error l i) as [a|] eqn:E.
  - erewrite map_nth_error by eauto. rewrite nth_error_seq by (apply nth_error_Some; congruence).
    f_equal. unfold pos_in. rewrite (index_of_nth axis_eqb axis_eqb_eq _ _ _ Hnd E). reflexivity.
  - transitivity (@None nat); [|symmetry]; apply nth_error_None; rewrite ?map_length, ?seq_length; apply nth_error_None; auto.
Qed.

Lemma map_pos_inj l m1 m2 :
  incl m1 l -> incl m2 l -> map (pos_in l) m1 = map (pos_in l) m2 -> m1 = m2.
Proof.
  revert m2; induction m1 as [|a m1 IH]; intros [|b m2] H1 H2 E; simpl in E; try discriminate; auto.
  inversion E. f_equal.
  - apply (pos_in_inj l); auto; [apply H1|apply H2]; left; auto.
  - apply IH; auto; intros x Hx; [apply H1|apply H2]; right; auto.
Qed.

Section Apply.
  Context {A : Type} (lib : bool).
  Implicit Types (x t y : tensor A).

  (** the five steps, for any way of reducing and of adding axes *)
  Definition steps (reduce_ : tensor A -> list nat -> result (tensor A))
      (add_ : tensor A -> nat -> list (nat * Z) -> result (tensor A)) (k : cooked Z) x : result (tensor A) :=
    let* t1 := match k_init k with Some s => t_reshape lib x s | None => Ok x end in
    let* t2 := match k_reorder k with Some p => t_transpose t1 p | None => Ok t1 end in
    let* t3 := match k_reduced k with [] => Ok t2 | _ => reduce_ t2 (k_reduced k) end in
    let* t4 := match k_added k with [] => Ok t3 | _ => add_ t3 (k_naxes k) (k_added k) end in
    match k_final k with Some s => t_reshape lib t4 s | None => Ok t4 end.

  Definition finish add_ (k : cooked Z) (t3 : tensor A) : result (tensor A) :=
    let* t4 := match k_added k with [] => Ok t3 | _ => add_ t3 (k_naxes k) (k_added k) end in
    match k_final k with Some s => t_reshape lib t4 s | None => Ok t4 end.

  (** a correct way to add axes *)
  Definition adds_axes (add_ : tensor A -> nat -> list (nat * Z) -> result (tensor A)) : Prop :=
    forall (old : axis -> bool) (len : axis -> nat) t ns f,
      NoDup ns -> repr t (filter old ns) len f ->
      exists t', add_ t (length ns) (added_from old len 0 ns) = Ok t' /\ repr t' ns len f.

  Context (o : orders) (lcomp rcomp : list (list axis)) (lids rids : list axis).
  Context (Ho : orders_ok o) (HR : resolved lcomp rcomp lids rids).
  Context (env : axis -> Z) (len : axis -> nat).
  Context (Henv : forall a, In a (concat lcomp) \/ In a (concat rcomp) -> env a = Z.of_nat (len a)).

  Notation kept := (kept_axes_of lcomp rcomp).
  Notation reduced := (reduced_axes_of lcomp rids).
  Let need := existsb (fun g => negb (length g =? 1)) lcomp.
  Let k := closed_cooked o lcomp rcomp rids env need.

  Lemma all_single (gs : list (list axis)) :
    existsb (fun g => negb (length g =? 1)) gs = false -> Forall (fun g => length g = 1) gs.
  Proof.
    intros H. apply Forall_forall. intros g Hg. apply Nat.eqb_eq. apply negb_false_iff.
    destruct (negb (length g =? 1)) eqn:E; auto. exfalso.
    assert (existsb (fun g => negb (length g =? 1)) gs = true) by (apply existsb_exists; eauto). congruence.
  Qed.

  Lemma map_env l : (forall a, In a l -> In a (concat lcomp) \/ In a (concat rcomp)) ->
    map env l = map Z.of_nat (map len l).
  Proof. intros H. rewrite map_map. apply map_ext_in. intros a Ha. apply Henv; auto. Qed.

  Lemma prodZ_of_nat l : prodZ (map Z.of_nat l) = Z.of_nat (prodn l).
  Proof.
    induction l as [|n l IH]; [reflexivity|]. rewrite prodn_cons, Nat2Z.inj_mul. cbn [map].
    change (prodZ (Z.of_nat n :: map Z.of_nat l)) with (Z.of_nat n * prodZ (map Z.of_nat l))%Z. rewrite IH. reflexivity.
  Qed.

  Lemma init_repr x : wf x -> shp x = gshape len lcomp ->
    exists t1, (match k_init k with Some s => t_reshape lib x s | None => Ok x end) = Ok t1 /\
               repr t1 (concat lcomp) len (fun ix => getr x (gindex len ix lcomp)).
  Proof.
    intros Hw Hs.
    assert (Hg : grepr x lcomp len (fun ix => getr x (gindex len ix lcomp))) by (repeat split; auto).
    unfold k, closed_cooked. cbn [k_init].
    destruct need eqn:En.
    - assert (E : firstn (length (order_after_of lcomp rcomp rids)) (map env (all_axes o lcomp rids))
                  = map Z.of_nat (map len (concat lcomp))).
      { rewrite <- (Permutation_length (order_after_perm _ _ _ _ HR)). unfold all_axes. rewrite map_app.
        rewrite <- (map_length env (concat lcomp)). rewrite firstn_exact. apply map_env; auto. }
      rewrite E. rewrite reshape_nat.
      + eexists; split; [reflexivity|]. destruct x as [s d]. apply (grepr_repr _ _ _ s). exact Hg.
      + rewrite Hs, prodn_gshape. reflexivity.
    - exists x; split; [reflexivity|]. apply repr_grepr_single; auto. apply all_single; auto.
  Qed.

  Lemma reorder_repr t f : repr t (concat lcomp) len f ->
    exists t2, (match k_reorder k with Some p => t_transpose t p | None => Ok t end) = Ok t2 /\
               repr t2 (kept ++ reduced) len f.
  Proof.
    intros Hr. pose proof (order_after_perm _ _ _ _ HR) as Hp.
    destruct HR as [[Hndl Hndr Hndi Hlids Hrids Han] Hag _].
    unfold k, closed_cooked. cbn [k_reorder]. fold (order_after_of lcomp rcomp rids).
    set (oa := order_after_of lcomp rcomp rids) in *.
    assert (Hi : incl oa (concat lcomp)) by (intros a Ha; eapply Permutation_in; [apply Permutation_sym; exact Hp|auto]).
    destruct (list_eq_dec Nat.eq_dec (map (pos_in (concat lcomp)) oa) (seq 0 (length (map (pos_in (concat lcomp)) oa)))) as [E|E].
    - assert (Eo : oa = concat lcomp).
      { apply (map_pos_inj (concat lcomp)); auto; [apply incl_refl|].
        rewrite map_pos_seq by auto. rewrite E, map_length, <- (Permutation_length Hp). reflexivity. }
      exists t; split; auto. change (kept ++ reduced) with oa. rewrite Eo; auto.
    - apply (transpose_repr axis_eqb axis_eqb_eq t (concat lcomp)); auto.
      clear -Hi. induction oa as [|a oa IH]; simpl; constructor.
      + unfold pos_in. destruct (index_of_In axis_eqb axis_eqb_eq a (concat lcomp)) as [i ->]; auto. apply Hi; left; auto.
      + apply IH. intros b Hb; apply Hi; right; auto.
  Qed.

  Lemma steps_split reduce_ add_ x :
    wf x -> shp x = gshape len lcomp ->
    exists t2, repr t2 (kept ++ reduced) len (fun ix => getr x (gindex len ix lcomp)) /\
      steps reduce_ add_ k x =
      let* t3 := match reduced with [] => Ok t2 | _ => reduce_ t2 (seq (length kept) (length reduced)) end in
      finish add_ k t3.
  Proof.
    intros Hw Hs. destruct (init_repr x Hw Hs) as [t1 [E1 R1]].
    destruct (reorder_repr t1 _ R1) as [t2 [E2 R2]].
    exists t2; split; auto. unfold steps. rewrite E1. cbn [bind]. rewrite E2. cbn [bind].
    assert (Er : k_reduced k = seq (length kept) (length reduced)) by reflexivity.
    rewrite Er. unfold finish. destruct reduced as [|a r]; reflexivity.
  Qed.

  Lemma map_env_added (l : list (nat * axis)) : (forall i a, In (i, a) l -> In a (concat rcomp)) ->
    map (fun '(i, a) => (i, env a)) l = map (fun '(i, a) => (i, Z.of_nat (len a))) l.
  Proof.
    intros H. apply map_ext_in. intros [i a] Hia. rewrite Henv; auto. right; eapply H; eauto.
  Qed.

  Lemma enumerate_In {B} (l : list B) i b : In (i, b) (enumerate l) -> In b l.
  Proof.
    intros H. apply (in_map snd) in H. unfold enumerate in H. rewrite enumerate_from_snd in H. exact H.
  Qed.

  Lemma added_from_eq :
    k_added k = added_from (fun a => axis_mem a (concat lcomp)) len 0 (concat rcomp).
  Proof.
    unfold k, closed_cooked. cbn [k_added]. unfold added_from, added_of. apply map_env_added.
    intros i a H. apply filter_In in H as [H _]. eapply enumerate_In; eauto.
  Qed.

  Lemma filter_enumerate_length {B} (p : B -> bool) l j :
    length (filter (fun '(_, a) => p a) (enumerate_from j l)) = length (filter p l).
  Proof. revert j; induction l as [|a l IH]; intros j; simpl; auto. destruct (p a); simpl; rewrite IH; auto. Qed.

  Lemma added_nil_kept : added_of lcomp rcomp = [] -> kept = concat rcomp.
  Proof.
    intros H. apply (f_equal (@length _)) in H. unfold added_of, enumerate in H.
    rewrite (filter_enumerate_length (fun a => negb (axis_mem a (concat lcomp)))) in H. simpl in H.
    unfold kept_axes_of. revert H. generalize (concat rcomp) as l. induction l as [|a l IH]; simpl; auto.
    destruct (axis_mem a (concat lcomp)); simpl; [|discriminate]. intros H. f_equal; auto.
  Qed.

  Lemma finish_repr add_ t f :
    adds_axes add_ -> repr t kept len f ->
    exists y, finish add_ k t = Ok y /\ grepr y rcomp len f.
  Proof.
    intros Hadd Hr. destruct HR as [[Hndl Hndr Hndi Hlids Hrids Han] Hag Hnew].
    assert (H4 : exists t4, (match k_added k with [] => Ok t | _ => add_ t (k_naxes k) (k_added k) end) = Ok t4
                            /\ repr t4 (concat rcomp) len f).
    { destruct (k_added k) as [|p l] eqn:Ek.
      - exists t; split; auto. unfold k, closed_cooked in Ek. cbn [k_added] in Ek. apply map_eq_nil in Ek.
        rewrite <- (added_nil_kept Ek); auto.
      - rewrite <- Ek. rewrite added_from_eq.
        assert (En : k_naxes k = length (concat rcomp)).
        { unfold k, closed_cooked. cbn [k_naxes]. unfold order_after_of. rewrite app_length.
          destruct Hnew as [Hnew|Hnew].
          - rewrite Hnew. simpl. unfold added_of, enumerate.
            rewrite (filter_enumerate_length (fun a => negb (axis_mem a (concat lcomp)))).
            unfold kept_axes_of. rewrite Nat.add_0_r.
            apply (filter_length_split (fun a => axis_mem a (concat lcomp))).
          - unfold k, closed_cooked in Ek. cbn [k_added] in Ek. rewrite Hnew in Ek. discriminate. }
        rewrite En. apply Hadd; auto. }
    destruct H4 as [t4 [E4 R4]]. unfold finish. rewrite E4. cbn [bind].
    unfold k, closed_cooked. cbn [k_final].
    destruct (existsb (fun g => negb (length g =? 1)) rcomp) eqn:Ef.
    - replace (map (fun g => prodZ (map env g)) rcomp) with (map Z.of_nat (gshape len rcomp)).
      + rewrite reshape_nat.
        * eexists; split; [reflexivity|]. destruct t4 as [s d]. apply (repr_grepr _ _ _ s); auto.
        * destruct R4 as [_ [-> _]]. apply prodn_gshape.
      + unfold gshape. rewrite map_map. apply map_ext_in. intros g Hg.
        rewrite map_env by (intros a Ha; right; apply in_concat; eauto). rewrite prodZ_of_nat. reflexivity.
    - exists t4; split; auto. apply repr_grepr_single; auto. apply all_single; auto.
  Qed.
End Apply.

Lemma tile_adds_axes {A} : adds_axes (@tile_add_axes A).
Proof. intros old len t ns f. apply (tile_add_repr axis_eqb axis_eqb_eq old len). Qed.
Lemma expand_adds_axes {A} : adds_axes (@expand_add_axes A).
Proof. intros old len t ns f. apply (expand_add_repr axis_eqb axis_eqb_eq old len). Qed.

Definition aa_add {A} (t : tensor A) (n : nat) (added : list (nat * Z)) : result (tensor A) :=
  let* t := foldM (fun t '(p, _) => t_expand_dims t p) added t in
  let* s := foldM (fun s '(p, l) => list_upd s p l) added (int_shape t) in
  t_broadcast_to t s.
Lemma aa_adds_axes {A} : adds_axes (@aa_add A).
Proof. intros old len t ns f. apply (aa_add_repr axis_eqb axis_eqb_eq old len). Qed.

Lemma apply_cooked_steps {A} lib red_ add_ isf num k (x : tensor A) red :
  apply_cooked (make_backend lib isf num red_ add_) k x red =
  steps lib (fun t axes => reduce_axes (make_backend lib isf num red_ add_) t red axes) add_ k x.
Proof. reflexivity. Qed.

Lemma backend_adds {A} lib red isf num f :
  exists r a, @backend_of A lib red isf num f = make_backend lib isf num r a /\ adds_axes a.
Proof.
  destruct f; eexists _, _; (split; [reflexivity|]); auto using tile_adds_axes, expand_adds_axes.
Qed.
