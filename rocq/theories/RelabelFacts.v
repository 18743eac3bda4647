(** * Calls that differ only in the labels of the axes have the same outcome *)
From Verif Require Import Py Tensor ListFacts TensorFacts SpecSem SpecGrammar SpecPattern SpecOps Parsing Compile Recipe Ops Backends Api StepFacts ParseFacts ParseFacts2 ParseFacts3 RecipeFacts InferFacts ApplyFacts FrontFacts FrontFacts2 FrontFacts3 MainFacts MainFacts2 ReduceFacts MainFacts3 CallFacts.

Section Sigma.
  Context (sigma : axis -> axis) (lcomp rcomp : list (list axis)).
  Notation Lam := (concat lcomp ++ concat rcomp).
  Context (Hinj : forall a b, In a Lam -> In b Lam -> sigma a = sigma b -> a = b).
  Notation lcomp' := (map (map sigma) lcomp).
  Notation rcomp' := (map (map sigma) rcomp).

  Lemma mem_sigma a l : In a Lam -> incl l Lam -> axis_mem (sigma a) (map sigma l) = axis_mem a l.
  Proof.
    intros Ha Hl. destruct (axis_mem a l) eqn:E.
    - apply axis_mem_In. apply axis_mem_In in E. apply in_map; auto.
    - destruct (axis_mem (sigma a) (map sigma l)) eqn:E'; auto. apply axis_mem_In in E'. apply in_map_iff in E' as [b [Eb Hb]].
      apply Hinj in Eb; auto. subst. apply axis_mem_In in Hb. congruence.
  Qed.

  Lemma pos_sigma a l : In a Lam -> incl l Lam -> pos_in (map sigma l) (sigma a) = pos_in l a.
  Proof.
    intros Ha Hl. unfold pos_in. rewrite (index_of_map axis_eqb axis_eqb sigma a l); auto.
    intros b Hb. destruct (axis_eqb a b) eqn:E.
    - apply axis_eqb_eq in E. subst. apply axis_eqb_eq; auto.
    - destruct (axis_eqb (sigma a) (sigma b)) eqn:E'; auto. apply axis_eqb_eq in E'. apply Hinj in E'; auto. subst.
      rewrite <- E. symmetry. apply axis_eqb_eq; auto.
  Qed.

  Let il : incl (concat lcomp) Lam.
  Proof. intros a Ha; apply in_or_app; auto. Qed.
  Let ir : incl (concat rcomp) Lam.
  Proof. intros a Ha; apply in_or_app; auto. Qed.

  Lemma kept_sigma : kept_axes_of lcomp' rcomp' = map sigma (kept_axes_of lcomp rcomp).
  Proof.
    unfold kept_axes_of. rewrite <- !concat_map. apply filter_map_in. intros a Ha. apply mem_sigma; auto.
  Qed.

  Lemma reduced_resolved lids rids lc rc : resolved lc rc lids rids ->
    reduced_axes_of lc rids = filter (fun a => negb (axis_mem a (concat rc))) (concat lc).
  Proof.
    intros HR. unfold reduced_axes_of. apply filter_ext_in. intros a Ha. f_equal. apply axis_mem_iff. apply (rs_agree _ _ _ _ HR); auto.
  Qed.

  Lemma reduced_sigma lids rids lids' rids' : resolved lcomp rcomp lids rids -> resolved lcomp' rcomp' lids' rids' ->
    reduced_axes_of lcomp' rids' = map sigma (reduced_axes_of lcomp rids).
  Proof.
    intros H H'. rewrite (reduced_resolved _ _ _ _ H), (reduced_resolved _ _ _ _ H'). rewrite <- !concat_map.
    apply filter_map_in. intros a Ha. f_equal. apply mem_sigma; auto.
  Qed.

  Lemma enumerate_map {B C} (f : B -> C) k l : enumerate_from k (map f l) = map (fun '(i, a) => (i, f a)) (enumerate_from k l).
  Proof. revert k. induction l as [|a l IH]; intros k; cbn [map enumerate_from]; auto. rewrite IH. reflexivity. Qed.

  Lemma added_sigma : added_of lcomp' rcomp' = map (fun '(i, a) => (i, sigma a)) (added_of lcomp rcomp).
  Proof.
    unfold added_of, enumerate. rewrite <- !concat_map, enumerate_map. apply filter_map_in.
    intros [i a] H. f_equal. apply mem_sigma; auto. apply ir. eapply enumerate_In; eauto.
  Qed.

  Lemma cooked_sigma o o' lids rids lids' rids' env env' need :
    resolved lcomp rcomp lids rids -> resolved lcomp' rcomp' lids' rids' ->
    (forall a, In a Lam -> env' (sigma a) = env a) ->
    closed_cooked o lcomp rcomp rids env need = closed_cooked o' lcomp' rcomp' rids' env' need.
  Proof.
    intros HR HR' He.
    assert (Hoa : order_after_of lcomp' rcomp' rids' = map sigma (order_after_of lcomp rcomp rids)).
    { unfold order_after_of. rewrite map_app, kept_sigma, (reduced_sigma _ _ _ _ HR HR'). reflexivity. }
    assert (Hin : incl (order_after_of lcomp rcomp rids) Lam).
    { intros a Ha. apply il. eapply Permutation_in; [apply Permutation_sym, (order_after_perm _ _ _ _ HR)|]; eauto. }
    assert (F : forall q lc rc li ri (e : axis -> Z), resolved lc rc li ri ->
      firstn (length (order_after_of lc rc ri)) (map e (all_axes q lc ri)) = map e (concat lc)).
    { intros q lc rc li ri e H. rewrite <- (Permutation_length (order_after_perm _ _ _ _ H)). unfold all_axes. rewrite map_app.
      rewrite <- (map_length e (concat lc)). apply firstn_exact. }
    assert (He' : forall l, incl l Lam -> map env' (map sigma l) = map env l).
    { intros l Hl. rewrite map_map. apply map_ext_in. auto. }
    unfold closed_cooked.
    rewrite (F o lcomp rcomp lids rids env HR), (F o' lcomp' rcomp' lids' rids' env' HR').
    rewrite Hoa, kept_sigma, (reduced_sigma _ _ _ _ HR HR'), added_sigma, !map_length.
    assert (Hperm : map (pos_in (concat lcomp')) (map sigma (order_after_of lcomp rcomp rids))
                    = map (pos_in (concat lcomp)) (order_after_of lcomp rcomp rids)).
    { rewrite map_map, <- concat_map. apply map_ext_in. intros a Ha. apply pos_sigma; auto. }
    rewrite Hperm. rewrite <- concat_map, He' by auto.
    f_equal.
    - rewrite map_map. apply map_ext_in. intros [i a] Ha. f_equal. symmetry. apply He, ir.
      unfold added_of in Ha. apply filter_In in Ha as [Ha _]. eapply enumerate_In; eauto.
    - rewrite existsb_map. rewrite (existsb_ext_in (fun x => negb (length (map sigma x) =? 1)) (fun g => negb (length g =? 1)))
        by (intros g _; rewrite map_length; auto).
      destruct (existsb _ rcomp); auto. f_equal. rewrite map_map. apply map_ext_in. intros g Hg. rewrite He'; auto.
      intros a Ha. apply ir, in_concat; eauto.
  Qed.

  (** inference of lengths *)
  Context (names names' : list pystr).
  Context (Hkn : forall a, In a Lam -> is_known names' (sigma a) = is_known names a).

  Lemma filter_known_sigma g : incl g Lam -> filter (is_known names') (map sigma g) = map sigma (filter (is_known names) g).
  Proof. intros Hg. apply filter_map_in. intros a Ha. apply Hkn; auto. Qed.
  Lemma filter_unknown_sigma g : incl g Lam ->
    filter (fun a => negb (is_known names' a)) (map sigma g) = map sigma (filter (fun a => negb (is_known names a)) g).
  Proof. intros Hg. apply filter_map_in. intros a Ha. f_equal. apply Hkn; auto. Qed.

  Lemma groups_ok_sigma : groups_ok names' lcomp' = groups_ok names lcomp.
  Proof.
    unfold groups_ok.
    assert (H : forall gs, incl (concat gs) Lam ->
      forallb (fun g => length (filter (fun a => negb (is_known names' a)) g) <=? 1) (map (map sigma) gs)
      = forallb (fun g => length (filter (fun a => negb (is_known names a)) g) <=? 1) gs).
    { induction gs as [|g gs IH]; intros Hi; cbn [map forallb]; auto.
      rewrite filter_unknown_sigma, map_length, IH; auto; intros a Ha; apply Hi; cbn [concat]; apply in_or_app; auto. }
    apply H; auto.
  Qed.

  Definition env_sim (st st' : (axis -> Z) * bool) : Prop :=
    snd st = snd st' /\ forall a, In a Lam -> fst st' (sigma a) = fst st a.
  Definition res_sim (r r' : result ((axis -> Z) * bool)) : Prop :=
    match r, r' with
    | Ok s, Ok s' => env_sim s s'
    | Err e, Err e' => e = e'
    | _, _ => False
    end.

  Lemma upd_sim env env' u z : In u Lam -> (forall a, In a Lam -> env' (sigma a) = env a) ->
    forall a, In a Lam -> upd env' (sigma u) z (sigma a) = upd env u z a.
  Proof.
    intros Hu He a Ha. unfold upd. destruct (axis_eqb u a) eqn:E.
    - apply axis_eqb_eq in E. subst. assert (X : axis_eqb (sigma a) (sigma a) = true) by (apply axis_eqb_eq; auto). rewrite X; auto.
    - destruct (axis_eqb (sigma u) (sigma a)) eqn:E'; auto. apply axis_eqb_eq in E'. apply Hinj in E'; auto. subst.
      assert (X : axis_eqb a a = true) by (apply axis_eqb_eq; auto). congruence.
  Qed.

  Lemma step_sigma st st' n g : incl g Lam -> env_sim st st' ->
    res_sim (ref_step names st (n, g)) (ref_step names' st' (n, map sigma g)).
  Proof.
    intros Hg [Hs He]. destruct st as [env need], st' as [env' need']. simpl in Hs, He. subst need'.
    unfold ref_step. rewrite filter_known_sigma, filter_unknown_sigma by auto.
    assert (Hk : map env' (map sigma (filter (is_known names) g)) = map env (filter (is_known names) g)).
    { rewrite map_map. apply map_ext_in. intros a Ha. apply filter_In in Ha as [Ha _]. apply He; auto. }
    rewrite Hk. rewrite !map_length.
    assert (Hu : forall u, In u (filter (fun a => negb (is_known names a)) g) -> In u Lam).
    { intros u H. apply filter_In in H as [H _]. auto. }
    destruct (filter (is_known names) g) as [|k ks]; destruct (filter (fun a => negb (is_known names a)) g) as [|u [|u2 us]];
      cbn [map bind];
      repeat match goal with |- context [if ?c then _ else _] => destruct c; cbn [bind res_sim] end;
      try reflexivity; split; cbn [fst snd]; auto; apply upd_sim; auto; apply Hu; left; reflexivity.
  Qed.

  Lemma infer_sigma shape st st' : env_sim st st' ->
    res_sim (ref_infer names shape lcomp st) (ref_infer names' shape lcomp' st').
  Proof.
    unfold ref_infer.
    assert (H : forall gs sh st st', incl (concat gs) Lam -> env_sim st st' ->
      res_sim (foldM (ref_step names) (combine sh gs) st) (foldM (ref_step names') (combine sh (map (map sigma) gs)) st')).
    { induction gs as [|g gs IH]; intros sh s s' Hi Hs; destruct sh as [|n sh]; cbn [combine foldM map]; auto.
      pose proof (step_sigma s s' n g) as H. cbn [concat] in Hi.
      assert (H1 : incl g Lam) by (intros a Ha; apply Hi, in_or_app; auto).
      assert (H2 : incl (concat gs) Lam) by (intros a Ha; apply Hi, in_or_app; auto).
      specialize (H H1 Hs). destruct (ref_step names s (n, g)), (ref_step names' s' (n, map sigma g)); cbn [bind]; try contradiction; auto. }
    apply H; auto.
  Qed.
End Sigma.

(** ** patterns *)
Definition front_ok (w : role) (L R : expr) (names : list pystr) (n e : nat) : Prop :=
  ident_ok w L R names /\ (has_dots R = true -> has_dots L = true) /\ no_grouped L /\ rank_fits L n e.

Definition names_good (L R : expr) (names : list pystr) : Prop :=
  forall s, In s names -> s <> ell_name /\ In s (keys L ++ keys R).

Section Patterns.
  Context {A : Type} (U : unicode) (HU : unicode_ok U) (o o' : orders) (Ho : orders_ok o) (Ho' : orders_ok o') (lib : bool).
  Context (reduce_ : tensor A -> list nat -> result (tensor A)).
  Context (add_ : tensor A -> nat -> list (nat * Z) -> result (tensor A)).

  Lemma no_front pattern op sizes (x : tensor A) L R q : reads U pattern L R ->
    (forall w e, op_role op = Some w -> ~ front_ok w L R (map fst sizes) (length (shp x)) e) ->
    core_call U q lib reduce_ add_ pattern op sizes x = Err EinopsError.
  Proof.
    intros Hr Hno. unfold core_call. rewrite prepare_split.
    destruct (frontend U pattern op (map fst sizes) (length (int_shape x))) as [v|ef] eqn:Ef; cbn [bind].
    - exfalso. apply frontend_iff in Ef as [L' [R' [e [w [Hr' [Hw [Hi [Hd [Hg [Hk Hv]]]]]]]]]]; auto.
      destruct (reads_fun U HU pattern L R L' R' Hr Hr') as [<- <-].
      unfold int_shape in Hk. rewrite map_length in Hk. apply (Hno w e Hw). repeat split; auto.
    - apply frontend_err in Ef as [->|[-> Hno']]; auto. exfalso.
      destruct Hr as [l [r [E [Hl Hr]]]]. apply (Hno' l r); auto; eapply no_minus_free, minus_free; eauto.
  Qed.

  Lemma core_call_sim pattern pattern' op sizes sizes' (x : tensor A) L R L' R' (rho : label -> label) :
    reads U pattern L R -> reads U pattern' L' R' -> NoDup (map fst sizes) -> NoDup (map fst sizes') ->
    (forall w, op_role op = Some w ->
       (exists e e', front_ok w L R (map fst sizes) (length (shp x)) e /\ front_ok w L' R' (map fst sizes') (length (shp x)) e' /\
          (names_good L R (map fst sizes) <-> names_good L' R' (map fst sizes')) /\
          (((odd_pattern L R -> e = 0) /\ (odd_pattern L' R' -> e' = 0)) \/
           (odd_pattern L R /\ e <> 0 /\ odd_pattern L' R' /\ e' <> 0)) /\
          left_groups e' L' = map (map rho) (left_groups e L) /\ right_groups e' L' R' = map (map rho) (right_groups e L R) /\
          (forall a b, In a (concat (left_groups e L) ++ concat (right_groups e L R)) ->
                       In b (concat (left_groups e L) ++ concat (right_groups e L R)) -> rho a = rho b -> a = b) /\
          (names_good L R (map fst sizes) ->
           forall a, In a (concat (left_groups e L) ++ concat (right_groups e L R)) ->
             unknown (map fst sizes') (rho a) = unknown (map fst sizes) a /\
             env0 sizes' (axis_of (rho a)) = env0 sizes (axis_of a))) \/
       ((forall e, ~ front_ok w L R (map fst sizes) (length (shp x)) e) /\
        (forall e, ~ front_ok w L' R' (map fst sizes') (length (shp x)) e))) ->
    core_call U o lib reduce_ add_ pattern op sizes x = core_call U o' lib reduce_ add_ pattern' op sizes' x.
  Proof.
    intros Hr Hr' Hn Hn' Hcase.
    destruct (op_role op) as [w|] eqn:Hw.
    2:{ rewrite (no_front pattern op sizes x L R o), (no_front pattern' op sizes' x L' R' o'); auto; intros; congruence. }
    destruct (Hcase w eq_refl) as [[e [e' [Hf [Hf' [Hng [Hodd [El [Er [Hinj Hval]]]]]]]]]|[Hno Hno']].
    2:{ rewrite (no_front pattern op sizes x L R o), (no_front pattern' op sizes' x L' R' o'); auto; intros w2 e2 Hw2;
        rewrite Hw in Hw2; inversion Hw2; subst; auto. }
    destruct Hf as [Hi [Hd [Hg Hk]]], Hf' as [Hi' [Hd' [Hg' Hk']]].
    rewrite (call_split U HU o Ho lib reduce_ add_ pattern op sizes x Hn L R e w) by auto.
    rewrite (call_split U HU o' Ho' lib reduce_ add_ pattern' op sizes' x Hn' L' R' e' w) by auto.
    pose proof (names_ok_iff U pattern L R e (map fst sizes) HU Hr Hd) as N.
    pose proof (names_ok_iff U pattern' L' R' e' (map fst sizes') HU Hr' Hd') as N'.
    fold (names_good L R (map fst sizes)) in N. fold (names_good L' R' (map fst sizes')) in N'.
    destruct (names_ok U _ (rids_of L R e) (map fst sizes)) eqn:En.
    2:{ destruct (names_ok U _ (rids_of L' R' e') (map fst sizes')) eqn:En'; auto. exfalso.
        assert (false = true) by tauto. discriminate. }
    assert (Hgood : names_good L R (map fst sizes)) by tauto.
    assert (En' : names_ok U (map (map axis_of) (left_groups e' L')) (rids_of L' R' e') (map fst sizes') = true) by tauto.
    rewrite En'. specialize (Hval Hgood).
    assert (Hgood' : names_good L' R' (map fst sizes')) by tauto.
    set (gl := left_groups e L) in *. set (gr := right_groups e L R) in *.
    (* the relabelling on axes *)
    assert (Hax : forall a b, In a (concat gl ++ concat gr) -> In b (concat gl ++ concat gr) -> axis_of a = axis_of b -> a = b)
      by (apply (labels_inj U HU pattern L R e Hr Hd)).
    assert (Hax' : forall a b, In a (concat (left_groups e' L') ++ concat (right_groups e' L' R')) ->
       In b (concat (left_groups e' L') ++ concat (right_groups e' L' R')) -> axis_of a = axis_of b -> a = b)
      by (apply (labels_inj U HU pattern' L' R' e' Hr' Hd')).
    set (sigma := fun a => lift (concat gl ++ concat gr) a (fun l => axis_of (rho l)) a).
    assert (Hsig : forall l, In l (concat gl ++ concat gr) -> sigma (axis_of l) = axis_of (rho l)).
    { intros l Hl. unfold sigma. rewrite lift_of; auto. }
    assert (Hlam : forall l, In l (concat gl ++ concat gr) -> In (rho l) (concat (left_groups e' L') ++ concat (right_groups e' L' R'))).
    { intros l Hl. rewrite El, Er, <- !concat_map, <- map_app. apply in_map; auto. }
    assert (Hsl : map (map axis_of) (left_groups e' L') = map (map sigma) (map (map axis_of) gl)).
    { rewrite El, !map_map. apply map_ext_in. intros g Hg2. rewrite !map_map. apply map_ext_in. intros a Ha. symmetry. apply Hsig.
      apply in_or_app; left. apply in_concat; eauto. }
    assert (Hsr : map (map axis_of) (right_groups e' L' R') = map (map sigma) (map (map axis_of) gr)).
    { rewrite Er, !map_map. apply map_ext_in. intros g Hg2. rewrite !map_map. apply map_ext_in. intros a Ha. symmetry. apply Hsig.
      apply in_or_app; right. apply in_concat; eauto. }
    assert (Hback : forall a, In a (concat (map (map axis_of) gl) ++ concat (map (map axis_of) gr)) ->
      exists l, a = axis_of l /\ In l (concat gl ++ concat gr)).
    { intros a Ha. rewrite <- !concat_map, <- map_app in Ha. apply in_map_iff in Ha as [l [<- Hl]]. eauto. }
    assert (Hsinj : forall a b, In a (concat (map (map axis_of) gl) ++ concat (map (map axis_of) gr)) ->
      In b (concat (map (map axis_of) gl) ++ concat (map (map axis_of) gr)) -> sigma a = sigma b -> a = b).
    { intros a b Ha Hb E. apply Hback in Ha as [la [-> Ha]], Hb as [lb [-> Hb]]. rewrite !Hsig in E by auto.
      apply Hax' in E; auto. apply Hinj in E; auto. congruence. }
    assert (Hkn : forall a, In a (concat (map (map axis_of) gl) ++ concat (map (map axis_of) gr)) ->
      is_known (map fst sizes') (sigma a) = is_known (map fst sizes) a).
    { intros a Ha. apply Hback in Ha as [l [-> Hl]]. rewrite Hsig by auto.
      rewrite (known_label U HU L R pattern Hr (map fst sizes) Hgood).
      rewrite (known_label U HU L' R' pattern' Hr' (map fst sizes') Hgood').
      f_equal. apply Hval; auto. }
    unfold after_front. rewrite Hsl, Hsr.
    rewrite (groups_ok_sigma sigma (map (map axis_of) gl) (map (map axis_of) gr) (map fst sizes) (map fst sizes') Hkn).
    fold gl gr.
    destruct (groups_ok (map fst sizes) (map (map axis_of) gl)) eqn:Eg; auto.
    assert (He0 : env_sim sigma (map (map axis_of) gl) (map (map axis_of) gr) (env0 sizes, false) (env0 sizes', false)).
    { split; auto. cbn [fst]. intros a Ha. apply Hback in Ha as [l [-> Hl]]. rewrite Hsig by auto. apply Hval; auto. }
    pose proof (infer_sigma sigma _ _ Hsinj _ _ Hkn (int_shape x) _ _ He0) as H.
    destruct (ref_infer (map fst sizes) _ _ _) as [[env need]|ex], (ref_infer (map fst sizes') _ _ _) as [[env' need']|ex'];
      cbn [bind res_sim] in *; try contradiction; [|congruence].
    destruct H as [Hs He]. cbn [fst snd] in Hs, He. subst need'.
    destruct Hodd as [[Hp Hp']|[Hodd [He1 [Hodd' He2]]]].
    - rewrite (cooked_sigma sigma (map (map axis_of) gl) (map (map axis_of) gr) Hsinj o o' (lids_of L e) (rids_of L R e) (lids_of L' e') (rids_of L' R' e') env env' need); auto.
      + eapply front_resolved; eauto.
      + rewrite <- Hsl, <- Hsr. eapply front_resolved; eauto.
    - unfold gl, gr in *.
      rewrite (steps_odd U HU o lib reduce_ add_ pattern) by auto. rewrite <- Hsl, <- Hsr.
      rewrite (steps_odd U HU o' lib reduce_ add_ pattern') by auto. reflexivity.
  Qed.
End Patterns.
