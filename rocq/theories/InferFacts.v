(** * What the inference of axis lengths computes *)
From Verif Require Import Py ListFacts Parsing Recipe ParseFacts RecipeFacts.

Lemma filter_split_perm {B} (p : B -> bool) l :
  Permutation l (filter p l ++ filter (fun a => negb (p a)) l).
Proof.
  induction l as [|a l IH]; simpl; [constructor|]. destruct (p a); simpl.
  - constructor; auto.
  - apply Permutation_cons_app; auto.
Qed.

Lemma prodZ_split (p : axis -> bool) env g :
  prodZ (map env g) = (prodZ (map env (filter p g)) * prodZ (map env (filter (fun a => negb (p a)) g)))%Z.
Proof.
  rewrite <- prodZ_app, <- map_app. apply prodZ_perm, Permutation_map, filter_split_perm.
Qed.

Lemma upd_same env a z : upd env a z a = z.
Proof. unfold upd. rewrite axis_eqb_refl. reflexivity. Qed.
Lemma upd_other env a z b : a <> b -> upd env a z b = env b.
Proof. unfold upd. intros H. destruct (axis_eqb a b) eqn:E; auto. apply axis_eqb_eq in E; contradiction. Qed.
Lemma map_upd_out env a z l : ~ In a l -> map (upd env a z) l = map env l.
Proof. intros H. apply map_ext_in. intros b Hb. apply upd_other. intros ->; contradiction. Qed.

Section Step.
  Context (names : list pystr).
  Notation known := (is_known names).
  Definition knowns (g : list axis) := filter known g.
  Definition unknowns (g : list axis) := filter (fun a => negb (known a)) g.

  Lemma in_knowns a g : In a (knowns g) <-> In a g /\ known a = true.
  Proof. apply filter_In. Qed.
  Lemma in_unknowns a g : In a (unknowns g) <-> In a g /\ known a = false.
  Proof. unfold unknowns. rewrite filter_In, negb_true_iff. tauto. Qed.

  (** a known product that has to be divided by is not zero *)
  Definition divisible (env : axis -> Z) (g : list axis) : Prop :=
    unknowns g <> [] -> knowns g <> [] -> prodZ (map env (knowns g)) <> 0%Z.

  Lemma step_sound env need n g env' need' :
    length (unknowns g) <= 1 ->
    ref_step names (env, need) (n, g) = Ok (env', need') ->
    n = prodZ (map env' g) /\
    (forall a, ~ In a (unknowns g) -> env' a = env a) /\
    need' = (need || negb (length g =? 1)) /\ divisible env g.
  Proof.
    intros Hu. unfold ref_step, divisible.
    pose proof (prodZ_split known) as Hsp. specialize (Hsp env' g).
    pose proof (filter_length_split known g) as Hlen.
    assert (Hnin : forall u, unknowns g = [u] -> ~ In u (knowns g)).
    { intros u E Hin. apply in_knowns in Hin as [_ Hk].
      assert (Hu' : In u (unknowns g)) by (rewrite E; left; auto). apply in_unknowns in Hu' as [_ Hk']. congruence. }
    fold (knowns g) (unknowns g) in *.
    destruct (unknowns g) as [|u [|u' us']] eqn:Eu; cbn [length] in Hu; try lia.
    - (* no unknown *)
      intros H. assert (H' : (let* env' := if (n =? prodZ (map env (knowns g)))%Z then Ok env else Err EinopsError in
                             Ok (env', if length g =? 1 then need else true)) = Ok (env', need')) by (destruct (knowns g); exact H).
      clear H. destruct (n =? prodZ (map env (knowns g)))%Z eqn:E; [|discriminate]. simpl in H'. inversion H'; subst env' need'; clear H'.
      apply Z.eqb_eq in E. repeat split; auto.
      + rewrite Hsp. rewrite <- E. simpl. ring.
      + destruct (length g =? 1); simpl; rewrite ?orb_false_r, ?orb_true_r; auto.
    - specialize (Hnin u eq_refl). destruct (knowns g) as [|k ks'] eqn:Ek.
      + intros H; inversion H; subst env' need'; clear H. repeat split; try congruence.
        * rewrite Hsp. simpl. rewrite upd_same. destruct n; simpl; rewrite ?Pos.mul_1_r; reflexivity.
        * intros a Ha. apply upd_other. intros ->. apply Ha; left; auto.
        * simpl in Hlen. rewrite <- Hlen. simpl. rewrite orb_false_r; auto.
      + rewrite <- Ek in *. destruct (prodZ (map env (knowns g)) =? 0)%Z eqn:E0; [rewrite Ek; discriminate|].
        destruct (n mod prodZ (map env (knowns g)) =? 0)%Z eqn:Em; [|rewrite Ek; discriminate].
        intros H. assert (H' : Ok (upd env u (n / prodZ (map env (knowns g)))%Z, if length g =? 1 then need else true) = Ok (env', need')).
        { rewrite Ek in H |- *. exact H. } clear H.
        inversion H'; subst env' need'; clear H'. apply Z.eqb_neq in E0. apply Z.eqb_eq in Em.
        repeat split; auto.
        * rewrite Hsp. rewrite (map_upd_out env u _ (knowns g)) by auto. simpl. rewrite upd_same.
          rewrite Z.mul_1_r. apply Z.div_exact; auto.
        * intros a Ha. apply upd_other. intros ->. apply Ha; left; auto.
        * destruct (length g =? 1); simpl; rewrite ?orb_false_r, ?orb_true_r; auto.
  Qed.

  Lemma step_complete env need n g env' :
    length (unknowns g) <= 1 ->
    n = prodZ (map env' g) -> (forall a, In a (knowns g) -> env' a = env a) -> divisible env g ->
    exists e nd, ref_step names (env, need) (n, g) = Ok (e, nd) /\ forall a, In a g -> e a = env' a.
  Proof.
    intros Hu Hn Hk. unfold ref_step, divisible. fold (knowns g) (unknowns g). intros Hd.
    assert (Hmk : map env (knowns g) = map env' (knowns g)).
    { apply map_ext_in. intros a Ha. symmetry; auto. }
    rewrite (prodZ_split known) in Hn. fold (knowns g) (unknowns g) in Hn. rewrite <- Hmk in Hn.
    assert (Hin : forall a, In a g -> In a (knowns g) \/ In a (unknowns g)).
    { intros a Ha. rewrite in_knowns, in_unknowns. destruct (known a); auto. }
    destruct (unknowns g) as [|u [|u' us']] eqn:Eu; cbn [length] in Hu; try lia.
    - simpl in Hn. rewrite Z.mul_1_r in Hn.
      exists env, (if length g =? 1 then need else true). split.
      + rewrite (proj2 (Z.eqb_eq _ _) Hn). destruct (knowns g); reflexivity.
      + intros a Ha. destruct (Hin a Ha) as [H|[]]. symmetry; auto.
    - simpl in Hn. rewrite Z.mul_1_r in Hn.
      destruct (knowns g) as [|k ks'] eqn:Ek.
      + exists (upd env u n), need. split; [reflexivity|]. intros a Ha. destruct (Hin a Ha) as [[]|[<-|[]]].
        rewrite upd_same. rewrite Hn. simpl. destruct (env' u); reflexivity.
      + rewrite <- Ek in *. assert (H0 : prodZ (map env (knowns g)) <> 0%Z).
        { apply Hd; [discriminate|]. rewrite Ek; discriminate. }
        rewrite (proj2 (Z.eqb_neq _ _) H0).
        assert (Hm : (n mod prodZ (map env (knowns g)) = 0)%Z) by (rewrite Hn, Z.mul_comm; apply Z_mod_mult).
        rewrite Hm. rewrite Z.eqb_refl. cbn [bind].
        eexists _, _. split; [rewrite Ek; reflexivity|]. rewrite <- Ek.
        intros a Ha. assert (Hq : (n / prodZ (map env (knowns g)) = env' u)%Z) by (rewrite Hn, Z.mul_comm; apply Z_div_mult_full; auto).
        destruct (axis_eqb u a) eqn:Ea.
        * apply axis_eqb_eq in Ea; subst. rewrite upd_same. auto.
        * rewrite upd_other by (intros ->; rewrite axis_eqb_refl in Ea; discriminate).
          destruct (Hin a Ha) as [H|[<-|[]]]; [symmetry; auto|rewrite axis_eqb_refl in Ea; discriminate].
  Qed.

  Lemma step_err env need n g e :
    ref_step names (env, need) (n, g) = Err e ->
    e = EinopsError \/ (e = ZeroDivisionError /\ ~ divisible env g).
  Proof.
    unfold ref_step, divisible. fold (knowns g) (unknowns g).
    assert (Hgen : forall us,
      (let* env' := match us with
            | [] => if (n =? prodZ (map env (knowns g)))%Z then Ok env else Err EinopsError
            | u :: _ => if (prodZ (map env (knowns g)) =? 0)%Z then Err ZeroDivisionError
                        else if (n mod prodZ (map env (knowns g)) =? 0)%Z
                             then Ok (upd env u (n / prodZ (map env (knowns g)))%Z) else Err EinopsError
            end in Ok (env', if length g =? 1 then need else true)) = Err e ->
      e = EinopsError \/ (e = ZeroDivisionError /\ us <> [] /\ prodZ (map env (knowns g)) = 0%Z)).
    { intros [|u us]; simpl.
      - destruct (n =? prodZ (map env (knowns g)))%Z; simpl; intros H; inversion H; auto.
      - destruct (prodZ (map env (knowns g)) =? 0)%Z eqn:E; simpl.
        + intros H; inversion H. apply Z.eqb_eq in E. right; repeat split; auto; discriminate.
        + destruct (n mod prodZ (map env (knowns g)) =? 0)%Z; simpl; intros H; inversion H; auto. }
    intros H.
    assert (H2 : e = EinopsError \/ (e = ZeroDivisionError /\ unknowns g <> [] /\ knowns g <> [] /\ prodZ (map env (knowns g)) = 0%Z)).
    { destruct (knowns g) as [|k ks] eqn:Ek.
      - destruct (unknowns g) as [|u [|u' us]]; [|discriminate|].
        + apply (Hgen []) in H as [H|[H [H1 _]]]; auto. congruence.
        + apply (Hgen (u :: u' :: us)) in H as [H|[H [H1 H2]]]; auto. simpl in H2; discriminate.
      - apply (Hgen (unknowns g)) in H as [H|[H [H1 H2]]]; auto. right; repeat split; auto; discriminate. }
    destruct H2 as [H2|[H2 [H3 [H4 H5]]]]; auto.
  Qed.
End Step.

Section Infer.
  Context (names : list pystr).

  Definition fitsZ (env : axis -> Z) (shape : list Z) (lcomp : list (list axis)) : Prop :=
    Forall2 (fun n g => n = prodZ (map env g)) shape lcomp.

  Lemma groups_ok_in lcomp g : groups_ok names lcomp = true -> In g lcomp -> length (unknowns names g) <= 1.
  Proof. unfold groups_ok. rewrite forallb_forall. intros H Hg. apply Nat.leb_le. apply (H g Hg). Qed.

  Lemma groups_ok_cons g lcomp :
    groups_ok names (g :: lcomp) = true -> length (unknowns names g) <= 1 /\ groups_ok names lcomp = true.
  Proof. unfold groups_ok. simpl. rewrite andb_true_iff, Nat.leb_le. auto. Qed.

  Lemma knowns_env (env env' : axis -> Z) g :
    (forall a, is_known names a = true -> env' a = env a) -> map env' (knowns names g) = map env (knowns names g).
  Proof. intros H. apply map_ext_in. intros a Ha. apply in_knowns in Ha as [_ Ha]; auto. Qed.

  Lemma infer_sound shape lcomp env need env' need' :
    NoDup (concat lcomp) -> groups_ok names lcomp = true -> length shape = length lcomp ->
    ref_infer names shape lcomp (env, need) = Ok (env', need') ->
    fitsZ env' shape lcomp /\
    (forall a, is_known names a = true \/ ~ In a (concat lcomp) -> env' a = env a) /\
    need' = (need || existsb (fun g => negb (length g =? 1)) lcomp) /\
    (forall g, In g lcomp -> divisible names env g).
  Proof.
    unfold ref_infer. revert shape env need; induction lcomp as [|g lcomp IH]; intros shape env need Hnd Hg Hl H.
    - destruct shape; [|discriminate]. simpl in H. inversion H; subst. repeat split; auto; try constructor.
      + simpl. rewrite orb_false_r; auto.
      + intros g [].
    - destruct shape as [|n shape]; [discriminate|]. cbn [combine foldM] in H.
      apply groups_ok_cons in Hg as [Hg1 Hg2]. simpl in Hnd. apply NoDup_app_iff in Hnd as [Hn1 [Hn2 Hn3]].
      apply bind_Ok in H as [[e1 n1] [H1 H2]].
      apply step_sound in H1 as [A1 [A2 [A3 A4]]]; auto.
      apply IH in H2 as [B1 [B2 [B3 B4]]]; auto.
      assert (C : forall a, In a g -> env' a = e1 a) by (intros a Ha; apply B2; right; auto).
      repeat split.
      + constructor; auto. rewrite A1. f_equal. apply map_ext_in. intros a Ha. symmetry; auto.
      + intros a Ha. simpl in Ha. rewrite in_app_iff in Ha. rewrite B2 by tauto. apply A2.
        rewrite in_unknowns. intros [X Y]. destruct Ha as [Ha|Ha]; [congruence|tauto].
      + simpl. rewrite B3, A3. rewrite orb_assoc. reflexivity.
      + intros h [<-|Hh]; auto. pose proof (B4 h Hh) as D. unfold divisible in *.
        rewrite (knowns_env env e1) in D; auto. intros a Ha. apply A2. rewrite in_unknowns. intros [_ X]; congruence.
  Qed.

  Lemma infer_complete shape lcomp env need env' :
    NoDup (concat lcomp) -> groups_ok names lcomp = true ->
    fitsZ env' shape lcomp -> (forall a, In a (concat lcomp) -> is_known names a = true -> env' a = env a) ->
    (forall g, In g lcomp -> divisible names env g) ->
    exists e, ref_infer names shape lcomp (env, need)
              = Ok (e, need || existsb (fun g => negb (length g =? 1)) lcomp) /\
              forall a, In a (concat lcomp) -> e a = env' a.
  Proof.
    unfold ref_infer. intros Hnd Hg Hf. revert env need Hnd Hg.
    induction Hf as [|n g shape lcomp Hn Hf IH]; intros env need Hnd Hg Hk Hd.
    - simpl. exists env. rewrite orb_false_r. split; auto. intros a [].
    - apply groups_ok_cons in Hg as [Hg1 Hg2]. simpl in Hnd. apply NoDup_app_iff in Hnd as [Hn1 [Hn2 Hn3]].
      cbn [combine foldM concat] in *.
      destruct (step_complete names env need n g env') as [e1 [nd [E1 E2]]]; auto.
      { intros a Ha. apply in_knowns in Ha as [Ha Hka]. apply Hk; auto. apply in_or_app; auto. }
      { apply Hd; left; auto. }
      rewrite E1. cbn [bind].
      pose proof (step_sound names _ _ _ _ _ _ Hg1 E1) as [A1 [A2 [A3 A4]]].
      assert (Hke : forall a, is_known names a = true -> e1 a = env a).
      { intros a Ha. apply A2. rewrite in_unknowns. intros [_ X]; congruence. }
      destruct (IH e1 nd) as [e [X1 X2]]; auto.
      + intros a Ha Hka. rewrite Hke by auto. apply Hk; auto. apply in_or_app; auto.
      + intros h Hh. specialize (Hd h (or_intror Hh)). unfold divisible in *. rewrite (knowns_env env e1); auto.
      + exists e. split.
        * rewrite X1, A3. simpl. rewrite orb_assoc. reflexivity.
        * intros a Ha. apply in_app_or in Ha as [Ha|Ha]; auto.
          rewrite <- E2 by auto.
          pose proof (infer_sound shape lcomp e1 nd e _ Hn2 Hg2 (Forall2_length _ _ _ Hf) X1) as [_ [B2 _]].
          apply B2. right; auto.
  Qed.

  Lemma infer_unique shape lcomp env need env' need' env2 :
    NoDup (concat lcomp) -> groups_ok names lcomp = true -> length shape = length lcomp ->
    ref_infer names shape lcomp (env, need) = Ok (env', need') ->
    fitsZ env2 shape lcomp -> (forall a, In a (concat lcomp) -> is_known names a = true -> env2 a = env a) ->
    forall a, In a (concat lcomp) -> env2 a = env' a.
  Proof.
    intros Hnd Hg Hl H Hf Hk a Ha.
    pose proof (infer_sound _ _ _ _ _ _ Hnd Hg Hl H) as [_ [_ [_ Hd]]].
    destruct (infer_complete _ _ env need env2 Hnd Hg Hf Hk Hd) as [e [E1 E2]].
    rewrite E1 in H. inversion H; subst. symmetry; auto.
  Qed.

  Lemma infer_err shape lcomp env need e :
    groups_ok names lcomp = true -> 
    ref_infer names shape lcomp (env, need) = Err e ->
    e = EinopsError \/ (e = ZeroDivisionError /\ exists g, In g lcomp /\ ~ divisible names env g).
  Proof.
    unfold ref_infer. revert shape env need; induction lcomp as [|g lcomp IH]; intros shape env need Hg H.
    - destruct shape; simpl in H; discriminate.
    - destruct shape as [|n shape]; [discriminate|]. cbn [combine foldM] in H.
      apply groups_ok_cons in Hg as [Hg1 Hg2].
      apply bind_Err in H as [H|[[e1 n1] [H1 H2]]].
      + apply step_err in H as [H|[H1 H2]]; auto. right; split; auto. exists g; split; [left|]; auto.
      + apply step_sound in H1 as [A1 [A2 [A3 A4]]]; auto.
        apply IH in H2 as [H2|[H2 [h [Hh H3]]]]; auto. right; split; auto. exists h; split; [right; auto|].
        intros D; apply H3. unfold divisible in *. rewrite (knowns_env env e1); auto.
        intros a Ha. apply A2. rewrite in_unknowns. intros [_ X]; congruence.
  Qed.
End Infer.
