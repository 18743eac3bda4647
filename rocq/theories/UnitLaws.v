(** * Parts of a pattern without axes *)
From Verif Require Import Py Tensor ListFacts TensorFacts SpecSem SpecGrammar SpecForms SpecPattern SpecOps Parsing Compile Recipe Ops Backends Api StepFacts ParseFacts ParseFacts2 ParseFacts3 RecipeFacts InferFacts ApplyFacts FrontFacts FrontFacts2 FrontFacts3 MainFacts MainFacts2 ReduceFacts MainFacts3 CallFacts RelabelFacts Laws ApiFacts ApiFacts2 RelabelLaws.

(** ** groups *)
Lemma one_atom a : is_one a = true -> a = ANum 1.
Proof. destruct a; cbn; try discriminate. intros H. apply Z.eqb_eq in H. congruence. Qed.
Lemma trivial_ones i a : trivial i -> In a (item_atoms i) -> a = ANum 1.
Proof.
  unfold trivial, content. intros H Ha. apply one_atom. destruct (is_one a) eqn:E; auto. exfalso.
  assert (X : In a (filter (fun a => negb (is_one a)) (item_atoms i))) by (apply filter_In; rewrite E; auto). rewrite H in X. destruct X.
Qed.
Lemma ones_key l : (forall a, In a l -> a = ANum 1) -> flat_map atom_key l = [].
Proof. induction l as [|a l IH]; intros H; auto. cbn. rewrite (H a) by (left; auto). cbn. apply IH. intros b Hb. apply H. right; auto. Qed.
Lemma ones_nbig l : (forall a, In a l -> a = ANum 1) -> nbig l = 0.
Proof. induction l as [|a l IH]; intros H; auto. rewrite nbig_cons, (H a) by (left; auto). rewrite IH; auto. intros b Hb. apply H. right; auto. Qed.
Lemma ones_labels dots e l : forall k, (forall a, In a l -> a = ANum 1) -> atoms_labels dots e k l = [].
Proof.
  induction l as [|a l IH]; intros k H; auto. cbn [atoms_labels]. rewrite IH by (intros b Hb; apply H; right; auto).
  rewrite (H a) by (left; auto). reflexivity.
Qed.
Lemma ones_exists p l : p (ANum 1) = false -> (forall a, In a l -> a = ANum 1) -> existsb p l = false.
Proof. induction l as [|a l IH]; intros Hp H; auto. cbn. rewrite (H a) by (left; auto). rewrite Hp. apply IH; auto. intros b Hb. apply H; right; auto. Qed.

Section Trivial.
  Context (i : item) (Hi : trivial i).
  Let Ho := fun a => trivial_ones i a Hi.
  Lemma triv_keys X Y : keys (X ++ i :: Y) = keys (X ++ Y).
  Proof. unfold keys, atoms. rewrite !flat_map_app. cbn [flat_map]. rewrite !flat_map_app, (ones_key (item_atoms i)) by exact Ho. reflexivity. Qed.
  Lemma triv_nbig X Y : nbig (atoms (X ++ i :: Y)) = nbig (atoms (X ++ Y)).
  Proof. unfold atoms. rewrite !flat_map_app. cbn [flat_map]. rewrite !nbig_app, (ones_nbig (item_atoms i)) by exact Ho. reflexivity. Qed.
  Lemma triv_dots X Y : has_dots (X ++ i :: Y) = has_dots (X ++ Y).
  Proof.
    unfold has_dots, atoms. rewrite !flat_map_app. cbn [flat_map]. rewrite !existsb_app, (ones_exists _ (item_atoms i)); auto.
  Qed.
  Lemma triv_numbers X Y : has_numbers (X ++ i :: Y) = has_numbers (X ++ Y).
  Proof.
    unfold has_numbers, atoms. rewrite !flat_map_app. cbn [flat_map]. rewrite !existsb_app, (ones_exists _ (item_atoms i)); auto.
  Qed.
  Lemma triv_grouped X Y : existsb grouped_ell (X ++ i :: Y) = existsb grouped_ell (X ++ Y).
  Proof.
    rewrite !existsb_app. cbn [existsb]. replace (grouped_ell i) with false; auto. symmetry.
    destruct i as [a|l]; cbn [grouped_ell]; auto. apply ones_exists; auto.
  Qed.
  Lemma triv_groups dots e k X Y :
    groups dots e k (X ++ i :: Y) = groups dots e k X ++ [] :: groups dots e (k + nbig (atoms X)) Y.
  Proof.
    rewrite groups_app. f_equal. cbn [groups]. rewrite (ones_nbig (item_atoms i)), Nat.add_0_r by exact Ho.
    destruct i as [a|l]; cbn [item_groups].
    - rewrite (Ho a) by (left; auto). reflexivity.
    - rewrite ones_labels by exact Ho. reflexivity.
  Qed.
  Lemma triv_ident w X Y Z W names :
    (ident_ok w (X ++ i :: Y) Z names <-> ident_ok w (X ++ Y) Z names) /\
    (ident_ok w W (X ++ i :: Y) names <-> ident_ok w W (X ++ Y) names).
  Proof. destruct w; cbn [ident_ok]; rewrite ?triv_keys, ?triv_numbers; tauto. Qed.
End Trivial.

Lemma split_groups dots e k X Y : groups dots e k (X ++ Y) = groups dots e k X ++ groups dots e (k + nbig (atoms X)) Y.
Proof. apply groups_app. Qed.
Lemma prodn_unit (s : list nat) k : prodn (firstn k s ++ 1 :: skipn k s) = prodn s.
Proof. rewrite prodn_app, prodn_cons, Nat.mul_1_l, <- prodn_app, firstn_skipn. reflexivity. Qed.

Lemma atoms_app X Y : atoms (X ++ Y) = atoms X ++ atoms Y.
Proof. apply flat_map_app. Qed.

(** ** inference of lengths *)
Definition step_env (names : list pystr) (env : axis -> Z) (x : Z * list axis) : result (axis -> Z) :=
  let '(len, g) := x in
  let kp := prodZ (map env (filter (is_known names) g)) in
  match filter (is_known names) g, filter (fun a => negb (is_known names a)) g with
  | [], [u] => Ok (upd env u len)
  | _, [] => if (len =? kp)%Z then Ok env else Err EinopsError
  | _, u :: _ => if (kp =? 0)%Z then Err ZeroDivisionError
                 else if (len mod kp =? 0)%Z then Ok (upd env u (len / kp)%Z) else Err EinopsError
  end.
Definition step_flag (names : list pystr) (x : Z * list axis) : bool :=
  match filter (is_known names) (snd x), filter (fun a => negb (is_known names a)) (snd x) with
  | [], [u] => false
  | _, _ => negb (length (snd x) =? 1)
  end.
Lemma step_parts names env need x :
  ref_step names (env, need) x = (let* env' := step_env names env x in Ok (env', need || step_flag names x)).
Proof.
  destruct x as [len g]. unfold ref_step, step_env, step_flag. cbn [snd].
  destruct (filter (is_known names) g) as [|k ks]; destruct (filter (fun a => negb (is_known names a)) g) as [|u [|u2 us]];
    cbv zeta; try (cbn [bind]; rewrite orb_false_r; reflexivity);
    apply bind_ext; intros env' _; destruct (length g =? 1); cbn [negb]; rewrite ?orb_false_r, ?orb_true_r; reflexivity.
Qed.
Lemma step_need names env env' need need' x :
  ref_step names (env, need) x = Ok (env', need') -> exists b, need' = (need || b) /\ forall n2, ref_step names (env, n2) x = Ok (env', n2 || b).
Proof.
  rewrite step_parts. destruct (step_env names env x) as [en|ex] eqn:E; cbn [bind]; [|discriminate]. intros H. inversion H. subst.
  exists (step_flag names x). split; auto. intros n2. rewrite step_parts, E. reflexivity.
Qed.
Lemma step_need_err names env need need2 x ex : ref_step names (env, need) x = Err ex -> ref_step names (env, need2) x = Err ex.
Proof. rewrite !step_parts. destruct (step_env names env x); cbn [bind]; [discriminate|auto]. Qed.
Lemma fold_need names l : forall env need,
  match foldM (ref_step names) l (env, need) with
  | Ok (env', _) => exists b, forall n2, foldM (ref_step names) l (env, n2) = Ok (env', n2 || b)
  | Err ex => forall n2, foldM (ref_step names) l (env, n2) = Err ex
  end.
Proof.
  induction l as [|x l IH]; intros env need; cbn [foldM].
  - exists false. intros. rewrite orb_false_r. reflexivity.
  - destruct (ref_step names (env, need) x) as [[env1 n1]|ex] eqn:E; cbn [bind].
    + apply step_need in E as [b [-> Hb]]. specialize (IH env1 (need || b)).
      destruct (foldM (ref_step names) l (env1, need || b)) as [[env' nn]|ex].
      * destruct IH as [b2 IH]. exists (b || b2). intros n2. rewrite Hb. cbn [bind]. rewrite IH, orb_assoc. reflexivity.
      * intros n2. rewrite Hb. cbn [bind]. apply IH.
    + intros n2. rewrite (step_need_err _ _ _ n2 _ _ E). reflexivity.
Qed.
Lemma foldM_app {S X} (f : S -> X -> result S) l m s : foldM f (l ++ m) s = (let* s' := foldM f l s in foldM f m s').
Proof. revert s. induction l as [|x l IH]; intros s; [reflexivity|]. cbn [app foldM]. destruct (f s x); cbn [bind]; auto. Qed.
Lemma combine_app {X Y} (a c : list X) (b d : list Y) : length a = length b -> combine (a ++ c) (b ++ d) = combine a b ++ combine c d.
Proof. revert b. induction a as [|x a IH]; intros [|y b] H; try discriminate; auto. cbn. f_equal. apply IH. cbn in H. lia. Qed.

Lemma infer_unit names s1 s2 g1 g2 d env : length s1 = length g1 ->
  match ref_infer names (s1 ++ s2) (g1 ++ g2) (env, false) with
  | Ok (env', need) => ref_infer names (s1 ++ d :: s2) (g1 ++ [] :: g2) (env, false) = if (d =? 1)%Z then Ok (env', true) else Err EinopsError
  | Err ex => (d = 1)%Z -> ref_infer names (s1 ++ d :: s2) (g1 ++ [] :: g2) (env, false) = Err ex
  end.
Proof.
  intros H. unfold ref_infer. rewrite !combine_app by auto. rewrite !foldM_app. cbn [combine].
  destruct (foldM (ref_step names) (combine s1 g1) (env, false)) as [[env1 n1]|ex]; cbn [bind]; [|auto].
  cbn [foldM]. assert (E : ref_step names (env1, n1) (d, []) = if (d =? 1)%Z then Ok (env1, true) else Err EinopsError).
  { cbn. destruct d as [|[| |]|]; reflexivity. }
  rewrite E. pose proof (fold_need names (combine s2 g2) env1 n1) as F.
  destruct (foldM (ref_step names) (combine s2 g2) (env1, n1)) as [[env' nn]|ex].
  - destruct F as [b F]. destruct (d =? 1)%Z; cbn [bind]; [rewrite F|]; reflexivity.
  - intros ->. cbn [bind Z.eqb Pos.eqb]. auto.
Qed.

Lemma infer_unit_bad names s1 s2 g1 g2 d env st : length s1 = length g1 ->
  ref_infer names (s1 ++ d :: s2) (g1 ++ [] :: g2) (env, false) = Ok st -> (d = 1)%Z.
Proof.
  intros H. unfold ref_infer. rewrite combine_app by auto. rewrite foldM_app. cbn [combine].
  destruct (foldM (ref_step names) (combine s1 g1) (env, false)) as [[env1 n1]|ex]; cbn [bind]; [|discriminate].
  cbn [foldM]. rewrite step_parts. cbn [step_env filter]. cbn [map prodZ fold_right].
  destruct (d =? 1)%Z eqn:E; cbn [bind]; [|discriminate]. intros _. apply Z.eqb_eq. exact E.
Qed.

(** ** a dimension of length 1 more on the left *)
Section Left.
  Context {A : Type} (U : unicode) (HU : unicode_ok U) (o : orders) (Ho : orders_ok o) (lib : bool).
  Context (reduce_ : tensor A -> list nat -> result (tensor A)).
  Context (add_ : tensor A -> nat -> list (nat * Z) -> result (tensor A)).
  Context (p p' : pystr) (op : operation) (sizes : list (pystr * Z)) (i : item) (L1 L2 R : expr) (e : nat).
  Context (Hi : trivial i) (Hr : reads U p (L1 ++ L2) R) (Hr' : reads U p' (L1 ++ i :: L2) R) (Hn : NoDup (map fst sizes)).
  Notation L := (L1 ++ L2).
  Notation L' := (L1 ++ i :: L2).
  Let pos := length (groups (has_dots L) e 0 L1).

  Lemma left_front w n : front_ok w L' R (map fst sizes) (S n) e <-> front_ok w L R (map fst sizes) n e.
  Proof.
    unfold front_ok, no_grouped, rank_fits. rewrite (triv_dots i Hi), (triv_grouped i Hi).
    rewrite (proj1 (triv_ident i Hi w L1 L2 R R (map fst sizes))). rewrite !app_length. cbn [length].
    destruct (has_dots L); intuition lia.
  Qed.
  Lemma left_gl : left_groups e L = groups (has_dots L) e 0 L1 ++ groups (has_dots L) e (0 + nbig (atoms L1)) L2.
  Proof. apply split_groups. Qed.
  Lemma left_gl' : left_groups e L' = groups (has_dots L) e 0 L1 ++ [] :: groups (has_dots L) e (0 + nbig (atoms L1)) L2.
  Proof. unfold left_groups. rewrite (triv_dots i Hi). apply triv_groups; auto. Qed.
  Lemma left_gr : right_groups e L' R = right_groups e L R.
  Proof. unfold right_groups. rewrite (triv_dots i Hi), (triv_nbig i Hi). reflexivity. Qed.
  Lemma left_rids : rids_of L' R e = rids_of L R e.
  Proof. unfold rids_of. rewrite (triv_dots i Hi), (triv_nbig i Hi). reflexivity. Qed.
  Lemma left_concat : concat (map (map axis_of) (left_groups e L')) = concat (map (map axis_of) (left_groups e L)).
  Proof. rewrite left_gl, left_gl', !map_app, !concat_app. reflexivity. Qed.

  Lemma left_core x : wf x -> rank_fits L (length (shp x)) e ->
    core_call U o lib reduce_ add_ p' op sizes (unit_at pos x) = core_call U o lib reduce_ add_ p op sizes x.
  Proof.
    intros Hwf Hk.
    destruct (op_role op) as [w|] eqn:Hw.
    2:{ rewrite (no_front U HU lib reduce_ add_ p' op sizes (unit_at pos x) L' R), (no_front U HU lib reduce_ add_ p op sizes x L R); auto; intros; congruence. }
    assert (Hlen : length (shp (unit_at pos x)) = S (length (shp x))).
    { unfold unit_at. cbn [shp]. rewrite app_length. cbn [length]. rewrite Nat.add_succ_r, <- app_length, firstn_skipn. reflexivity. }
    assert (Hfk : front_ok w L R (map fst sizes) (length (shp x)) e \/ ~ front_ok w L R (map fst sizes) (length (shp x)) e).
    { destruct (front_dec w L R (map fst sizes) (length (shp x))) as [[e2 H2]|H2]; [|right; apply H2]. left.
      replace e with e2; auto. destruct H2 as [_ [_ [_ H2]]]. unfold rank_fits in *. destruct (has_dots L); lia. }
    destruct Hfk as [Hf|Hf].
    2:{ rewrite (no_front U HU lib reduce_ add_ p' op sizes (unit_at pos x) L' R), (no_front U HU lib reduce_ add_ p op sizes x L R); auto;
          intros w2 e2 Hw2 F; assert (w2 = w) by congruence; subst w2; apply Hf.
        - replace e with e2; auto. destruct F as [_ [_ [_ F]]]. unfold rank_fits in *. destruct (has_dots L); lia.
        - rewrite Hlen in F. replace e with e2.
          + unfold front_ok in *.
            unfold no_grouped, rank_fits in *. rewrite (triv_dots i Hi), (triv_grouped i Hi) in F.
            rewrite (proj1 (triv_ident i Hi w L1 L2 R R (map fst sizes))) in F. rewrite !app_length in *. cbn [length] in *.
            destruct (has_dots L); intuition lia.
          + destruct F as [_ [_ [_ F]]]. unfold rank_fits in *. rewrite (triv_dots i Hi) in F. rewrite !app_length in *. cbn [length] in *.
            destruct (has_dots L); lia. }
    pose proof (proj2 (left_front w (length (shp x))) Hf) as Hf'. rewrite <- Hlen in Hf'.
    destruct Hf as [Hid [Hd [Hg _]]], Hf' as [Hid' [Hd' [Hg' Hk']]].
    rewrite (call_split U HU o Ho lib reduce_ add_ p op sizes x Hn L R e w) by auto.
    rewrite (call_split U HU o Ho lib reduce_ add_ p' op sizes (unit_at pos x) Hn L' R e w) by auto.
    rewrite left_rids.
    assert (En : names_ok U (map (map axis_of) (left_groups e L')) (rids_of L R e) (map fst sizes) =
                 names_ok U (map (map axis_of) (left_groups e L)) (rids_of L R e) (map fst sizes)).
    { unfold names_ok. rewrite left_concat. reflexivity. }
    rewrite En. destruct (names_ok U (map (map axis_of) (left_groups e L)) (rids_of L R e) (map fst sizes)); [|reflexivity].
    assert (Eg : groups_ok (map fst sizes) (map (map axis_of) (left_groups e L')) = groups_ok (map fst sizes) (map (map axis_of) (left_groups e L))).
    { unfold groups_ok. rewrite left_gl, left_gl', !map_app, !forallb_app. reflexivity. }
    rewrite Eg. destruct (groups_ok (map fst sizes) (map (map axis_of) (left_groups e L))) eqn:EG; auto. clear En Eg.
    unfold after_front. rewrite left_gr, left_rids.
    assert (Hpos : pos = length (map (map axis_of) (groups (has_dots L) e 0 L1))) by (rewrite map_length; reflexivity).
    assert (Hcnt : length (left_groups e L) = length (shp x)) by exact (groups_count U p L R e _ Hr Hg Hk).
    assert (Hle : pos <= length (shp x)).
    { rewrite left_gl, app_length in Hcnt. unfold pos. lia. }
    pose proof (infer_unit (map fst sizes) (map Z.of_nat (firstn pos (shp x))) (map Z.of_nat (skipn pos (shp x)))
                  (map (map axis_of) (groups (has_dots L) e 0 L1)) (map (map axis_of) (groups (has_dots L) e (0 + nbig (atoms L1)) L2)) 1%Z (env0 sizes)) as HI.
    rewrite !map_length, firstn_length_le in HI by auto. specialize (HI eq_refl).
    assert (E1 : int_shape x = map Z.of_nat (firstn pos (shp x)) ++ map Z.of_nat (skipn pos (shp x))).
    { unfold int_shape. rewrite <- map_app, firstn_skipn. reflexivity. }
    assert (E2 : int_shape (unit_at pos x) = map Z.of_nat (firstn pos (shp x)) ++ 1%Z :: map Z.of_nat (skipn pos (shp x))).
    { unfold int_shape, unit_at. cbn [shp]. rewrite map_app. reflexivity. }
    assert (G1 : map (map axis_of) (left_groups e L) = map (map axis_of) (groups (has_dots L) e 0 L1) ++ map (map axis_of) (groups (has_dots L) e (0 + nbig (atoms L1)) L2)).
    { rewrite left_gl, map_app. reflexivity. }
    assert (G2 : map (map axis_of) (left_groups e L') = map (map axis_of) (groups (has_dots L) e 0 L1) ++ [] :: map (map axis_of) (groups (has_dots L) e (0 + nbig (atoms L1)) L2)).
    { rewrite left_gl', map_app. reflexivity. }
    rewrite <- E1, <- E2, <- G1, <- G2 in HI.
    destruct (ref_infer (map fst sizes) (int_shape x) _ _) as [[env need]|ex] eqn:EI; cbn [bind].
    2:{ rewrite HI by reflexivity. reflexivity. }
    cbn [Z.eqb Pos.eqb] in HI. rewrite HI. cbn [bind].
    assert (EC : forall nd, closed_cooked o (map (map axis_of) (left_groups e L')) (map (map axis_of) (right_groups e L R)) (rids_of L R e) env nd =
                 closed_cooked o (map (map axis_of) (left_groups e L)) (map (map axis_of) (right_groups e L R)) (rids_of L R e) env nd).
    { intros nd. unfold closed_cooked, order_after_of, kept_axes_of, reduced_axes_of, added_of, all_axes. rewrite left_concat. reflexivity. }
    rewrite EC.
    destruct (odd_cases L R e) as [Hpl|[Hodd He]].
    2:{ rewrite !(steps_odd U HU o lib reduce_ add_ p) by auto. reflexivity. }
    set (lcomp := map (map axis_of) (left_groups e L)) in *. set (rcomp := map (map axis_of) (right_groups e L R)) in *.
    assert (Hl : length (int_shape x) = length lcomp) by (unfold int_shape, lcomp; rewrite !map_length; auto).
    pose proof (infer_sound (map fst sizes) (int_shape x) lcomp (env0 sizes) false env need (lcomp_NoDup U HU p L R e Hr Hd) EG Hl EI) as [Hfit [_ [Hneed _]]].
    cbn [orb] in Hneed. fold lcomp in Hneed.
    pose proof (front_resolved U HU p L R e Hr Hd w (map fst sizes) Hid Hpl) as HR. fold lcomp rcomp in HR.
    assert (EK : forall nd, k_init (closed_cooked o lcomp rcomp (rids_of L R e) env nd) =
       if nd then Some (map env (concat lcomp)) else None).
    { intros nd. unfold closed_cooked. cbn [k_init]. destruct nd; auto. f_equal.
      rewrite <- (Permutation_length (order_after_perm _ _ _ _ HR)). unfold all_axes. rewrite map_app.
      rewrite <- (map_length env (concat lcomp)). apply firstn_exact. }
    assert (ES : forall s, t_reshape lib (unit_at pos x) s = t_reshape lib x s).
    { intros s. unfold t_reshape, unit_at. cbn [shp dat]. rewrite prodn_unit. reflexivity. }
    assert (EF : (match k_init (closed_cooked o lcomp rcomp (rids_of L R e) env true) with Some s => t_reshape lib (unit_at pos x) s | None => Ok (unit_at pos x) end)
               = (match k_init (closed_cooked o lcomp rcomp (rids_of L R e) env need) with Some s => t_reshape lib x s | None => Ok x end)).
    { rewrite !EK. destruct need; [apply ES|]. rewrite ES. symmetry in Hneed.
      assert (X : map env (concat lcomp) = map Z.of_nat (shp x)).
      { pose proof (all_single lcomp Hneed) as HS. unfold fitsZ, int_shape in Hfit. clear -Hfit HS.
        revert HS Hfit. generalize (shp x) as sh. induction lcomp as [|g gs IH]; intros sh HS HF.
        - inversion HF. destruct sh; [reflexivity|discriminate].
        - inversion HS as [|? ? H1 H2]; subst. destruct sh as [|d sh]; [inversion HF|]. cbn [map] in HF. inversion HF as [|? ? ? ? F1 F2]; subst.
          destruct g as [|a [|b g]]; try discriminate. cbn [concat app map]. rewrite (IH sh H2 F2). f_equal. rewrite F1. cbn [map prodZ fold_right]. lia. }
      rewrite X, reshape_nat by reflexivity. destruct x; reflexivity. }
    unfold steps. rewrite EF. reflexivity.
  Qed.

  Lemma left_core_bad x' y : rank_fits L' (length (shp x')) e ->
    core_call U o lib reduce_ add_ p' op sizes x' = Ok y -> nth_error (shp x') pos = Some 1.
  Proof.
    intros Hk' H.
    destruct (op_role op) as [w|] eqn:Hw.
    2:{ rewrite (no_front U HU lib reduce_ add_ p' op sizes x' L' R) in H; auto; [discriminate|intros; congruence]. }
    destruct (front_dec w L' R (map fst sizes) (length (shp x'))) as [[e2 H2]|H2].
    2:{ rewrite (no_front U HU lib reduce_ add_ p' op sizes x' L' R) in H; auto; [discriminate|].
        intros w2 e2 Hw2 F. assert (w2 = w) by congruence. subst w2. exact (H2 e2 F). }
    assert (e2 = e). { destruct H2 as [_ [_ [_ H2]]]. unfold rank_fits in *. destruct (has_dots L'); lia. } subst e2.
    destruct H2 as [Hid' [Hd' [Hg' _]]].
    rewrite (call_split U HU o Ho lib reduce_ add_ p' op sizes x' Hn L' R e w) in H by auto.
    destruct (names_ok U _ _ _); [|discriminate]. destruct (groups_ok _ _) eqn:EG; [|discriminate].
    unfold after_front in H. apply bind_Ok in H as [st [HI _]].
    assert (Hcnt : length (left_groups e L') = length (shp x')) by exact (groups_count U p' L' R e _ Hr' Hg' Hk').
    rewrite left_gl' in HI, Hcnt. rewrite map_app in HI. cbn [map] in HI.
    rewrite app_length in Hcnt. fold pos in Hcnt. cbn [length] in Hcnt.
    destruct (nth_error (shp x') pos) as [d|] eqn:E; [|apply nth_error_None in E; lia].
    destruct (nth_error_split _ _ E) as [s1 [s2 [Es El]]].
    unfold int_shape in HI. rewrite Es, map_app in HI. cbn [map] in HI.
    apply infer_unit_bad in HI; [f_equal; lia|]. rewrite !map_length. exact El.
  Qed.
End Left.

(** ** a dimension of length 1 more on the right *)
Lemma inb_app s1 s2 i1 i2 : length i1 = length s1 -> inb (s1 ++ s2) (i1 ++ i2) = inb s1 i1 && inb s2 i2.
Proof.
  revert i1. induction s1 as [|d s1 IH]; intros [|j i1] H; try discriminate; auto.
  cbn [app inb]. rewrite IH by (cbn in H; lia). apply andb_assoc.
Qed.
Lemma get_unit {A} (t : tensor A) s1 s2 i1 i2 : shp t = s1 ++ s2 -> length i1 = length s1 ->
  get (unit_at (length s1) t) (i1 ++ 0 :: i2) = get t (i1 ++ i2).
Proof.
  intros E H. unfold get, unit_at. cbn [shp dat]. rewrite E, firstn_exact, skipn_exact.
  rewrite !inb_app, !ravel_app by auto. cbn [inb ravel]. rewrite prodn_cons, !Nat.mul_1_l. reflexivity.
Qed.

Section Right.
  Context {A : Type} (gl g1 g2 : list (list label)) (len : label -> nat) (red : list A -> result A) (h : bool).
  Notation gr := (g1 ++ g2).
  Notation gr' := (g1 ++ [] :: g2).
  Lemma right_concat : concat gr' = concat gr.
  Proof. rewrite !concat_app. reflexivity. Qed.
  Lemma right_missing : missing gl gr' = missing gl gr.
  Proof. unfold missing. rewrite right_concat. reflexivity. Qed.
  Lemma gindex_length ix gs : length (gindex len ix gs) = length (gshape len gs).
  Proof. unfold gindex, gshape. rewrite !map_length. reflexivity. Qed.
  Lemma unit_shape (y : tensor A) : shp y = gshape len gr -> shp (unit_at (length g1) y) = gshape len gr'.
  Proof.
    intros E. unfold unit_at. cbn [shp]. rewrite E. unfold gshape. rewrite !map_app. cbn [map].
    replace (length g1) with (length (map (fun g => prodn (map len g)) g1)) by (rewrite map_length; auto).
    rewrite firstn_exact, skipn_exact. reflexivity.
  Qed.
  Lemma unit_get (y : tensor A) ix : shp y = gshape len gr -> get (unit_at (length g1) y) (gindex len ix gr') = get y (gindex len ix gr).
  Proof.
    intros E. unfold gindex. rewrite !map_app. cbn [map]. change (ravel [] []) with 0.
    replace (length g1) with (length (gshape len g1)) by (unfold gshape; rewrite map_length; auto).
    apply (get_unit y (gshape len g1) (gshape len g2)).
    - rewrite E. unfold gshape. apply map_app.
    - unfold gshape. rewrite !map_length. reflexivity.
  Qed.
  Lemma unit_wf (y : tensor A) k : wf (unit_at k y) <-> wf y.
  Proof. unfold wf, unit_at. cbn [shp dat]. rewrite prodn_unit. reflexivity. Qed.
  Lemma unit_back (y' : tensor A) : shp y' = gshape len gr' -> exists y, shp y = gshape len gr /\ y' = unit_at (length g1) y.
  Proof.
    intros E. exists (mkT (gshape len gr) (dat y')). split; auto. pose proof (unit_shape (mkT (gshape len gr) (dat y')) eq_refl) as X.
    destruct y' as [s d]. cbn [shp dat] in *. subst s. rewrite <- X. reflexivity.
  Qed.
  Lemma right_outcome x y' : outcome h red gl gr' len x y' <-> exists y, outcome h red gl gr len x y /\ y' = unit_at (length g1) y.
  Proof.
    unfold outcome, moves, reduces. rewrite right_missing, right_concat. split.
    - intros [[Hm [Hw [Hs Hg]]]|[Hm [Hh [Hw [Hs Hg]]]]]; destruct (unit_back y' Hs) as [y [Hy ->]]; exists y; split; auto.
      + left. repeat split; auto; [apply (unit_wf y (length g1)); auto|]. intros ix Hix. rewrite <- (unit_get y ix Hy). auto.
      + right. split; [auto|]. split; [auto|]. split; [apply (unit_wf y (length g1)); auto|]. split; [auto|]. intros ix Hix. rewrite <- (unit_get y ix Hy). auto.
    - intros [y [[[Hm [Hw [Hs Hg]]]|[Hm [Hh [Hw [Hs Hg]]]]] ->]].
      + left. split; [auto|]. split; [apply unit_wf; auto|]. split; [apply unit_shape; auto|]. intros ix Hix. rewrite (unit_get y ix Hs). auto.
      + right. split; [auto|]. split; [auto|]. split; [apply unit_wf; auto|]. split; [apply unit_shape; auto|]. intros ix Hix. rewrite (unit_get y ix Hs). auto.
  Qed.
End Right.

(** ** the functions *)
Section Calls.
  Context {A : Type} (r : runtime A) (Hok : runtime_ok r).
  Notation U := (rt_unicode r).
  Let HU : unicode_ok U := ro_unicode r Hok.
  Let Ho : orders_ok (rt_orders r) := ro_orders r Hok.

  Lemma calls_rename p p' f L R sizes : reads U p L R -> reads U p' (rename f L) (rename f R) -> NoDup (map fst sizes) ->
    renaming f (keys L ++ keys R ++ map fst sizes) -> no_reserved sizes -> no_reserved (rename_sizes f sizes) ->
    forall (x : input (tensor A)) red, reduce r x p red sizes = reduce r x p' red (rename_sizes f sizes) /\
      xp_reduce_ r x p red sizes = xp_reduce_ r x p' red (rename_sizes f sizes).
  Proof.
    intros Hr Hr' Hn Hf H1 H2 x red. apply lift_call; auto. intros. apply (rename_core U HU (rt_orders r) Ho (rt_lib r) _ _ p p' _ sizes f L R); auto.
  Qed.
  Lemma calls_open p p' fs L R sizes n : reads U p L R -> reads U p' (open_dots fs L) (open_dots fs R) -> NoDup (map fst sizes) ->
    plain L -> plain R -> has_dots L = true -> ~ grouped_dots L -> rank_fits L n (length fs) ->
    (forall s, In s fs -> ~ In s (keys L ++ keys R ++ map fst sizes)) -> no_reserved sizes ->
    forall (x : input (tensor A)), input_rank x n -> forall red, (has_dots R = true \/ fs <> [] \/ op_role (op_of red) = Some Reducing) ->
      reduce r x p red sizes = reduce r x p' red sizes /\ xp_reduce_ r x p red sizes = xp_reduce_ r x p' red sizes.
  Proof.
    intros Hr Hr' Hn P1 P2 Hd Hg Hk Hf Hs x Hx red Hc. apply (lift_rank r p p' red sizes sizes n); auto. intros reduce_ add_ t Ht.
    apply (open_core U HU (rt_orders r) Ho (rt_lib r) reduce_ add_ p p' _ sizes fs L R); auto. rewrite Ht. auto.
  Qed.
  Lemma calls_number p p' s n L R sizes : reads U p L R -> reads U p' (number s n L) (number s n R) -> NoDup (map fst ((s, n) :: sizes)) ->
    (2 <= n)%Z -> s <> ell_name -> no_reserved ((s, n) :: sizes) ->
    forall (x : input (tensor A)) red,
    (In s (keys L) /\ ~ In s (keys R) /\ op_role (op_of red) = Some Reducing \/
     In s (keys R) /\ ~ In s (keys L) /\ op_role (op_of red) = Some Repeating) ->
      reduce r x p red ((s, n) :: sizes) = reduce r x p' red sizes /\ xp_reduce_ r x p red ((s, n) :: sizes) = xp_reduce_ r x p' red sizes.
  Proof.
    intros Hr Hr' Hn H2 Hs Hres x red Hc. apply lift_call; auto.
    { intros t Ht. apply Hres. right; auto. }
    intros. apply (number_core U HU (rt_orders r) Ho (rt_lib r) _ _ p p' _ sizes s n L R); auto.
  Qed.

  Lemma role_kind (red : reduction (tensor A)) : match red with RStr s => builtin s | RCall _ => True end -> op_role (op_of red) = Some Reducing.
  Proof.
    destruct red as [s|g]; [|reflexivity]. intros H. apply role_of_red. unfold builtin in H. cbn in H. 
    repeat destruct H as [<-|H]; try reflexivity. destruct H.
  Qed.

  (** *** one dimension more on the left *)
  Lemma stands_same d d' a : a <> AName ell_name -> stands_for_dots d a = stands_for_dots d' a.
  Proof.
    intros H. destruct a as [t| |]; auto. cbn. destruct (str_eqb t ell_name) eqn:E; [apply str_eqb_eq in E; congruence|].
    rewrite !andb_false_r. reflexivity.
  Qed.
  Lemma atoms_same d d' e l : ~ In (AName ell_name) l -> forall k, atoms_labels d e k l = atoms_labels d' e k l.
  Proof.
    induction l as [|a l IH]; intros H k; auto. cbn [atoms_labels]. rewrite IH by (intros X; apply H; right; auto). f_equal.
    unfold atom_labels. rewrite (stands_same d d') by (intros ->; apply H; left; auto). reflexivity.
  Qed.
  Lemma groups_same d d' e ex : ~ In (AName ell_name) (atoms ex) -> forall k, groups d e k ex = groups d' e k ex.
  Proof.
    induction ex as [|j ex IH]; intros H k; auto. unfold atoms in H. cbn [flat_map] in H. cbn [groups].
    rewrite IH by (intros X; apply H, in_or_app; auto). f_equal.
    destruct j as [a|l]; cbn [item_groups item_atoms] in *.
    - unfold atom_labels. rewrite (stands_same d d') by (intros ->; apply H; left; auto). reflexivity.
    - f_equal. apply atoms_same. intros X. apply H, in_or_app; auto.
  Qed.
  Lemma left_pos p L1 L2 R e : reads U p (L1 ++ L2) R -> left_groups e L1 = groups (has_dots (L1 ++ L2)) e 0 L1.
  Proof.
    intros Hr. unfold left_groups. destruct (has_dots L1) eqn:E1.
    - replace (has_dots (L1 ++ L2)) with true; auto. symmetry. unfold has_dots in *. rewrite atoms_app, existsb_app, E1. reflexivity.
    - destruct (has_dots (L1 ++ L2)) eqn:E; auto. apply groups_same. intros X.
      pose proof (keys_NoDup_L U p _ _ Hr) as ND. unfold keys in ND. rewrite atoms_app, flat_map_app in ND.
      apply NoDup_app_iff in ND as [_ [_ ND]]. apply (ND ell_name).
      + apply in_flat_map. exists (AName ell_name). split; auto. left; auto.
      + apply has_dots_key. unfold has_dots in *. rewrite atoms_app, existsb_app, E1 in E. exact E.
  Qed.

  Lemma calls_left p p' i L1 L2 R sizes e : trivial i -> reads U p (L1 ++ L2) R -> reads U p' (L1 ++ i :: L2) R -> NoDup (map fst sizes) ->
    forall (x : tensor A) red, wf x -> rank_fits (L1 ++ L2) (length (shp x)) e ->
      reduce r (One (unit_at (length (left_groups e L1)) x)) p' red sizes = reduce r (One x) p red sizes /\
      xp_reduce_ r (One (unit_at (length (left_groups e L1)) x)) p' red sizes = xp_reduce_ r (One x) p red sizes.
  Proof.
    intros Hi Hr Hr' Hn x red Hw Hk. rewrite (left_pos p L1 L2 R e Hr).
    unfold reduce, xp_reduce_, rt_backend, rt_ns. split.
    - rewrite !api_core. apply bind_ext. intros _ _.
      apply (left_core U HU (rt_orders r) Ho (rt_lib r) _ _ p p' (op_of red) sizes i L1 L2 R e); auto.
    - rewrite !aa_core. apply bind_ext. intros _ _.
      apply (left_core U HU (rt_orders r) Ho (rt_lib r) _ _ p p' (op_of red) sizes i L1 L2 R e); auto.
  Qed.
  Lemma calls_left_demands p' i L1 L2 R sizes e : trivial i -> reads U p' (L1 ++ i :: L2) R -> NoDup (map fst sizes) ->
    forall (x y : tensor A) red, rank_fits (L1 ++ i :: L2) (length (shp x)) e ->
      reduce r (One x) p' red sizes = Ok y \/ xp_reduce_ r (One x) p' red sizes = Ok y ->
      nth_error (shp x) (length (left_groups e L1)) = Some 1.
  Proof.
    intros Hi Hr' Hn x y red Hk H. rewrite (left_pos p' L1 (i :: L2) R e Hr'), (triv_dots i Hi).
    unfold reduce, xp_reduce_, rt_backend, rt_ns in H. rewrite api_core, aa_core in H.
    destruct H as [H|H]; apply bind_Ok in H as [u [_ H]];
      exact (left_core_bad U HU (rt_orders r) Ho (rt_lib r) _ _ p' (op_of red) sizes i L1 L2 R e Hi Hr' Hn x y Hk H).
  Qed.

  (** *** one dimension more on the right *)
  Lemma right_ok w p p' i L R1 R2 sizes shape e len : trivial i -> reads U p L (R1 ++ R2) -> reads U p' L (R1 ++ i :: R2) ->
    (call_ok U w p' sizes shape L (R1 ++ i :: R2) e len <-> call_ok U w p sizes shape L (R1 ++ R2) e len).
  Proof.
    intros Hi Hr Hr'.
    assert (Eg : right_groups e L (R1 ++ i :: R2) = groups (has_dots L) e (nbig (atoms L)) R1 ++ [] :: groups (has_dots L) e (nbig (atoms L) + nbig (atoms R1)) R2)
      by (apply triv_groups; auto).
    assert (Eg' : right_groups e L (R1 ++ R2) = groups (has_dots L) e (nbig (atoms L)) R1 ++ groups (has_dots L) e (nbig (atoms L) + nbig (atoms R1)) R2)
      by apply split_groups.
    assert (Ef : fits len (left_groups e L) (right_groups e L (R1 ++ i :: R2)) shape sizes <-> fits len (left_groups e L) (right_groups e L (R1 ++ R2)) shape sizes).
    { unfold fits. rewrite Eg, Eg', right_concat. reflexivity. }
    pose proof (proj2 (triv_ident i Hi w R1 R2 R1 L (map fst sizes))) as Ei.
    pose proof (triv_dots i Hi R1 R2) as Ed. pose proof (triv_keys i Hi R1 R2) as Ek.
    assert (Eo : odd_pattern L (R1 ++ i :: R2) <-> odd_pattern L (R1 ++ R2)) by (unfold odd_pattern; rewrite Ed, Ek; reflexivity).
    split; intros [? ? ? ? ? ? ? ? ? ?]; split; auto; try tauto; rewrite ?Ed, ?Ek in *; auto.
  Qed.
  Lemma op_right rd w red h p p' i L R1 R2 sizes e (x y' : tensor A) : trivial i -> reads U p L (R1 ++ R2) -> reads U p' L (R1 ++ i :: R2) ->
    NoDup (map fst sizes) -> wf x -> rank_fits L (length (shp x)) e ->
    op_kind r p sizes rd w red h -> op_kind r p' sizes rd w red h ->
    (reduce r (One x) p' rd sizes = Ok y' <-> exists y, reduce r (One x) p rd sizes = Ok y /\ y' = unit_at (length (right_groups e L R1)) y).
  Proof.
    intros Hi Hr Hr' Hn Hw Hk K K'. unfold reduce.
    assert (Eg : right_groups e L (R1 ++ i :: R2) = right_groups e L R1 ++ [] :: groups (has_dots L) e (nbig (atoms L) + nbig (atoms R1)) R2)
      by (apply triv_groups; auto).
    assert (Eg' : right_groups e L (R1 ++ R2) = right_groups e L R1 ++ groups (has_dots L) e (nbig (atoms L) + nbig (atoms R1)) R2)
      by apply split_groups.
    rewrite (op_iff r Hok rd w red h x p' sizes y' K' Hn Hw). split.
    - intros [Hs [L0 [R0 [e0 [len [Hc Hout]]]]]].
      destruct (reads_fun U HU p' _ _ _ _ (co_reads _ _ _ _ _ _ _ _ _ Hc) Hr') as [-> ->].
      assert (e0 = e) by (eapply rank_fits_fun; [exact (co_rank _ _ _ _ _ _ _ _ _ Hc)|exact Hk]). subst e0.
      rewrite Eg in Hout. apply right_outcome in Hout as [y [Hout ->]]. exists y. split; auto.
      apply (op_iff r Hok rd w red h x p sizes y K Hn Hw). split; auto. exists L, (R1 ++ R2), e, len.
      split; [apply (right_ok w p p' i); auto|]. rewrite Eg'. exact Hout.
    - intros [y [H ->]]. apply (op_iff r Hok rd w red h x p sizes y K Hn Hw) in H as [Hs [L0 [R0 [e0 [len [Hc Hout]]]]]].
      destruct (reads_fun U HU p _ _ _ _ (co_reads _ _ _ _ _ _ _ _ _ Hc) Hr) as [-> ->].
      assert (e0 = e) by (eapply rank_fits_fun; [exact (co_rank _ _ _ _ _ _ _ _ _ Hc)|exact Hk]). subst e0.
      split; auto. exists L, (R1 ++ i :: R2), e, len. split; [apply (right_ok w p p' i); auto|].
      rewrite Eg. apply right_outcome. rewrite Eg' in Hout. eauto.
  Qed.
  Lemma calls_right p p' i L R1 R2 sizes e (x y' : tensor A) : trivial i -> reads U p L (R1 ++ R2) -> reads U p' L (R1 ++ i :: R2) ->
    NoDup (map fst sizes) -> wf x -> rank_fits L (length (shp x)) e ->
    let same f := f p' = Ok y' <-> exists y, f p = Ok y /\ y' = unit_at (length (right_groups e L R1)) y in
    same (fun q => rearrange r (One x) q sizes) /\
    (repeat_sizes_ok r p sizes -> same (fun q => repeat_ r (One x) q sizes)) /\
    (forall s, builtin s -> reduction_fits r s -> float_if_mean r s -> same (fun q => reduce r (One x) q (RStr s) sizes)).
  Proof.
    intros Hi Hr Hr' Hn Hw Hk same. split; [|split].
    - unfold same. apply (op_right (RStr s_rearrange) Rearranging (fun _ => Err AssertionError) true p p' i L R1 R2 sizes e x y'); auto; constructor.
    - intros Hs. unfold same. apply (op_right (RStr s_repeat) Repeating (fun _ => Err AssertionError) true p p' i L R1 R2 sizes e x y'); auto; constructor; auto.
      intros Ex L0 R0 s H0 Hin. destruct (reads_fun U HU p' _ _ _ _ H0 Hr') as [-> ->]. eapply Hs; eauto.
    - intros s Hb H1 H2. unfold same.
      assert (Hs : str_mem s reductions = true).
      { unfold builtin in Hb. cbn in Hb. repeat destruct Hb as [<-|Hb]; try reflexivity. destruct Hb. }
      apply (op_right (RStr s) Reducing (rt_red r s) (has_reduction (rt_framework r) s) p p' i L R1 R2 sizes e x y'); auto; constructor; auto.
  Qed.

  (** *** all functions at once *)
  Lemma all_rename f p p' L R sizes : reads U p L R -> reads U p' (rename f L) (rename f R) ->
    NoDup (map fst sizes) -> renaming f (keys L ++ keys R ++ map fst sizes) ->
    no_reserved sizes -> no_reserved (rename_sizes f sizes) ->
    forall x : input (tensor A),
      rearrange r x p sizes = rearrange r x p' (rename_sizes f sizes) /\
      repeat_ r x p sizes = repeat_ r x p' (rename_sizes f sizes) /\
      (forall red, reduce r x p red sizes = reduce r x p' red (rename_sizes f sizes)) /\
      xp_rearrange r x p sizes = xp_rearrange r x p' (rename_sizes f sizes) /\
      xp_repeat r x p sizes = xp_repeat r x p' (rename_sizes f sizes) /\
      (forall red, xp_reduce_ r x p red sizes = xp_reduce_ r x p' red (rename_sizes f sizes)).
  Proof.
    intros Hr Hr' Hn Hf H1 H2 x. pose proof (calls_rename p p' f L R sizes Hr Hr' Hn Hf H1 H2 x) as H.
    split; [exact (proj1 (H (RStr s_rearrange)))|]. split; [exact (proj1 (H (RStr s_repeat)))|]. split; [exact (fun red => proj1 (H red))|].
    split; [exact (proj2 (H (RStr s_rearrange)))|]. split; [exact (proj2 (H (RStr s_repeat)))|]. exact (fun red => proj2 (H red)).
  Qed.
  Lemma all_open fs p p' L R sizes n : reads U p L R -> reads U p' (open_dots fs L) (open_dots fs R) ->
    NoDup (map fst sizes) -> plain L -> plain R -> has_dots L = true -> ~ grouped_dots L -> rank_fits L n (length fs) ->
    (forall s, In s fs -> ~ In s (keys L ++ keys R ++ map fst sizes)) -> no_reserved sizes ->
    forall x : input (tensor A), input_rank x n ->
      (has_dots R = true ->
         rearrange r x p sizes = rearrange r x p' sizes /\ repeat_ r x p sizes = repeat_ r x p' sizes /\
         xp_rearrange r x p sizes = xp_rearrange r x p' sizes /\ xp_repeat r x p sizes = xp_repeat r x p' sizes) /\
      (forall red, match red with RStr s => builtin s | RCall _ => True end ->
         reduce r x p red sizes = reduce r x p' red sizes /\ xp_reduce_ r x p red sizes = xp_reduce_ r x p' red sizes).
  Proof.
    intros Hr Hr' Hn P1 P2 Hd Hg Hk Hf Hs x Hx. pose proof (calls_open p p' fs L R sizes n Hr Hr' Hn P1 P2 Hd Hg Hk Hf Hs x Hx) as H. split.
    - intros HR. pose proof (H (RStr s_rearrange) (or_introl HR)) as [H1 H2]. pose proof (H (RStr s_repeat) (or_introl HR)) as [H3 H4].
      split; [exact H1|]. split; [exact H3|]. split; [exact H2|exact H4].
    - intros red Hred. apply H. right; right. apply role_kind, Hred.
  Qed.
  Lemma all_open_dropped fs p p' L R sizes n : reads U p L R -> reads U p' (open_dots fs L) (open_dots fs R) ->
    NoDup (map fst sizes) -> plain L -> plain R -> has_dots L = true -> ~ grouped_dots L -> rank_fits L n (length fs) ->
    (forall s, In s fs -> ~ In s (keys L ++ keys R ++ map fst sizes)) -> no_reserved sizes -> fs <> [] ->
    forall x : input (tensor A), input_rank x n ->
      rearrange r x p sizes = rearrange r x p' sizes /\ repeat_ r x p sizes = repeat_ r x p' sizes.
  Proof.
    intros Hr Hr' Hn P1 P2 Hd Hg Hk Hf Hs Hfs x Hx. pose proof (calls_open p p' fs L R sizes n Hr Hr' Hn P1 P2 Hd Hg Hk Hf Hs x Hx) as H.
    split; [exact (proj1 (H (RStr s_rearrange) (or_intror (or_introl Hfs))))|exact (proj1 (H (RStr s_repeat) (or_intror (or_introl Hfs))))].
  Qed.
  Lemma number_reduced p p' s n L R sizes : reads U p L R -> reads U p' (number s n L) (number s n R) ->
    NoDup (map fst ((s, n) :: sizes)) -> (2 <= n)%Z -> s <> ell_name -> no_reserved ((s, n) :: sizes) ->
    In s (keys L) -> ~ In s (keys R) ->
    forall (x : input (tensor A)) red, match red with RStr s => builtin s | RCall _ => True end ->
      reduce r x p red ((s, n) :: sizes) = reduce r x p' red sizes /\
      xp_reduce_ r x p red ((s, n) :: sizes) = xp_reduce_ r x p' red sizes.
  Proof.
    intros Hr Hr' Hn H2 Hs Hres H3 H4 x red Hred. apply (calls_number p p' s n L R); auto. left. split; [auto|]. split; [auto|]. apply role_kind, Hred.
  Qed.
  Lemma number_repeated p p' s n L R sizes : reads U p L R -> reads U p' (number s n L) (number s n R) ->
    NoDup (map fst ((s, n) :: sizes)) -> (2 <= n)%Z -> s <> ell_name -> no_reserved ((s, n) :: sizes) ->
    In s (keys R) -> ~ In s (keys L) ->
    forall x : input (tensor A),
      repeat_ r x p ((s, n) :: sizes) = repeat_ r x p' sizes /\ xp_repeat r x p ((s, n) :: sizes) = xp_repeat r x p' sizes.
  Proof.
    intros Hr Hr' Hn H2 Hs Hres H3 H4 x. apply (calls_number p p' s n L R sizes Hr Hr' Hn H2 Hs Hres x (RStr s_repeat)). right. auto.
  Qed.
  Lemma all_left p p' i L1 L2 R sizes e : trivial i -> reads U p (L1 ++ L2) R -> reads U p' (L1 ++ i :: L2) R -> NoDup (map fst sizes) ->
    forall x : tensor A, wf x -> rank_fits (L1 ++ L2) (length (shp x)) e ->
      let x' := unit_at (length (left_groups e L1)) x in
      rearrange r (One x') p' sizes = rearrange r (One x) p sizes /\
      repeat_ r (One x') p' sizes = repeat_ r (One x) p sizes /\
      (forall red, reduce r (One x') p' red sizes = reduce r (One x) p red sizes) /\
      xp_rearrange r (One x') p' sizes = xp_rearrange r (One x) p sizes /\
      xp_repeat r (One x') p' sizes = xp_repeat r (One x) p sizes /\
      (forall red, xp_reduce_ r (One x') p' red sizes = xp_reduce_ r (One x) p red sizes).
  Proof.
    intros Hi Hr Hr' Hn x Hw Hk x'. pose proof (fun red => calls_left p p' i L1 L2 R sizes e Hi Hr Hr' Hn x red Hw Hk) as H. fold x' in H.
    split; [exact (proj1 (H (RStr s_rearrange)))|]. split; [exact (proj1 (H (RStr s_repeat)))|]. split; [exact (fun red => proj1 (H red))|].
    split; [exact (proj2 (H (RStr s_rearrange)))|]. split; [exact (proj2 (H (RStr s_repeat)))|]. exact (fun red => proj2 (H red)).
  Qed.
  Lemma all_left_demands p' i L1 L2 R sizes e : trivial i -> reads U p' (L1 ++ i :: L2) R -> NoDup (map fst sizes) ->
    forall (x y : tensor A) red, rank_fits (L1 ++ i :: L2) (length (shp x)) e ->
      reduce r (One x) p' red sizes = Ok y \/ xp_reduce_ r (One x) p' red sizes = Ok y \/
      rearrange r (One x) p' sizes = Ok y \/ repeat_ r (One x) p' sizes = Ok y \/
      xp_rearrange r (One x) p' sizes = Ok y \/ xp_repeat r (One x) p' sizes = Ok y ->
      nth_error (shp x) (length (left_groups e L1)) = Some 1.
  Proof.
    intros Hi Hr' Hn x y red Hk H. pose proof (fun red => calls_left_demands p' i L1 L2 R sizes e Hi Hr' Hn x y red Hk) as G.
    destruct H as [H|[H|[H|[H|[H|H]]]]].
    - exact (G red (or_introl H)).
    - exact (G red (or_intror H)).
    - exact (G (RStr s_rearrange) (or_introl H)).
    - exact (G (RStr s_repeat) (or_introl H)).
    - exact (G (RStr s_rearrange) (or_intror H)).
    - exact (G (RStr s_repeat) (or_intror H)).
  Qed.
End Calls.
