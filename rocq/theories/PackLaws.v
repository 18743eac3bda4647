(** * pack and rearrange *)
From Verif Require Import Py Tensor ListFacts TensorFacts SpecSem SpecGrammar SpecPattern SpecPacking SpecShape SpecOps Parsing Recipe Ops Backends Api Packing ParseFacts ParseFacts2 ParseFacts3 StepFacts FrontFacts FrontFacts2 FrontFacts3 MainFacts ReduceFacts MainFacts3 CallFacts ApiFacts ApiFacts2 ApiFacts3 ApiFacts4 ApiFacts7 RelabelLaws PackFacts PackFacts2 PackFacts3.

Lemma atoms_app e1 e2 : atoms (e1 ++ e2) = atoms e1 ++ atoms e2.
Proof. apply flat_map_app. Qed.
Lemma atoms_names l : atoms (axes_named l) = map AName l.
Proof. induction l as [|s l IH]; [reflexivity|]. cbn. f_equal. exact IH. Qed.
Lemma keys_app e1 e2 : keys (e1 ++ e2) = keys e1 ++ keys e2.
Proof. unfold keys. rewrite atoms_app. apply flat_map_app. Qed.
Lemma keys_names l : keys (axes_named l) = l.
Proof. unfold keys. rewrite atoms_names. induction l as [|s l IH]; [reflexivity|]. cbn. f_equal. exact IH. Qed.
Lemma nbig_names0 l : nbig (map AName l) = 0.
Proof. induction l as [|s l IH]; [reflexivity|]. unfold nbig in *. cbn. exact IH. Qed.
Lemma names_no (f : atom -> bool) l : (forall s, f (AName s) = false) -> existsb f (map AName l) = false.
Proof. intros H. induction l as [|s l IH]; [reflexivity|]. cbn. rewrite H. exact IH. Qed.

Lemma groups_names d e k l : (d = true -> ~ In ell_name l) -> groups d e k (axes_named l) = map (fun s => [LName s]) l.
Proof.
  intros H. revert k. induction l as [|s l IH]; intros k; [reflexivity|]. cbn [axes_named map groups item_groups]. fold (axes_named l).
  assert (E : stands_for_dots d (AName s) = false).
  { cbn. destruct d; [|reflexivity]. cbn. destruct (str_eqb s ell_name) eqn:E; [|reflexivity]. apply str_eqb_eq in E. subst. exfalso. apply H; [auto|left; auto]. }
  rewrite E. unfold atom_labels. rewrite E. cbn [app]. f_equal. apply IH. intros Hd X. apply H; [auto|right; auto].
Qed.

Lemma single_groups {X Y} (f : X -> Y) l : Forall (fun g => length g = 1) (map (fun s => [f s]) l).
Proof. induction l; constructor; auto. Qed.
Lemma concat_single {X Y} (f : X -> Y) l : concat (map (fun s => [f s]) l) = map f l.
Proof. induction l as [|s l IH]; [reflexivity|]. cbn. f_equal. exact IH. Qed.

(** a call in which every dimension of the tensor is one axis *)
Lemma single_call U w p sh L R e : unicode_ok U -> reads U p L R -> ident_ok w L R [] ->
  has_dots L = has_dots R -> (has_dots L = true -> ~ grouped_dots L) -> rank_fits L (length sh) e -> length sh = length (left_groups e L) ->
  Forall (fun g => length g = 1) (left_groups e L) -> NoDup (concat (left_groups e L)) ->
  (forall a, In a (concat (left_groups e L) ++ concat (right_groups e L R)) -> match a with LNum _ _ => False | _ => True end) ->
  exists len, map len (concat (left_groups e L)) = sh /\ call_ok U w p [] sh L R e len.
Proof.
  intros HU Hr Hid Hd Hg Hk Hlen Hs Hn Hl. set (gl := left_groups e L) in *.
  assert (El : length sh = length (concat gl)).
  { transitivity (length gl).
    - exact Hlen.
    - clear -Hs. induction Hs as [|g gs Hg _ IH]; [reflexivity|]. cbn. rewrite app_length, <- IH, Hg. reflexivity. }
  set (len := assign label_eqb (fun _ => 0) (concat gl) sh).
  assert (Em : map len (concat gl) = sh) by (apply (assign_map label_eqb label_eqb_eq); auto).
  exists len. split; auto.
  constructor; auto.
  - congruence.
  - intros s [].
  - intros g Hi. rewrite Forall_forall in Hs. specialize (Hs _ Hi). destruct g as [|a [|? ?]]; try discriminate. cbn. destruct (unknown [] a); cbn; lia.
  - split; [fold gl; rewrite gshape_single; auto|]. split; [|intros s z []]. intros k n X. destruct (Hl _ X).
  - intros g Hi. rewrite Forall_forall in Hs. specialize (Hs _ Hi). destruct g as [|a [|? ?]]; try discriminate. cbn. destruct (unknown [] a) eqn:E; cbn; [intros _; discriminate|congruence].
  - intros [H1 [H2 _]]. congruence.
Qed.

Lemma app_same_len {X} (a a' b b' : list X) : length a = length a' -> a ++ b = a' ++ b' -> a = a' /\ b = b'.
Proof.
  revert a'. induction a as [|x a IH]; intros [|x' a'] H E; try discriminate; auto. cbn in *. injection E as -> E.
  destruct (IH a' ltac:(lia) E) as [-> ->]. auto.
Qed.

Lemma name_not_ell U l : unicode_ok U -> Forall (axis_name U) l -> ~ In ell_name l.
Proof.
  intros HU H X. rewrite Forall_forall in H. destruct (H _ X) as [H1 _]. rewrite ell_not_identifier in H1; auto. discriminate.
Qed.

Lemma NoDup_names l : NoDup l -> NoDup (map LName l).
Proof. intros H. apply FinFun.Injective_map_NoDup; auto. intros a b E. congruence. Qed.
Lemma NoDup_dots e : NoDup (map LDots (seq 0 e)).
Proof. apply FinFun.Injective_map_NoDup; [intros a b E; congruence|apply seq_NoDup]. Qed.
Lemma NoDup_around (before after : list pystr) mid : NoDup (before ++ after) -> NoDup mid -> (forall s, In s (before ++ after) -> ~ In (LName s) mid) ->
  NoDup (map LName before ++ mid ++ map LName after).
Proof.
  intros Hn Hm Hd. induction before as [|s l IH]; cbn [map app] in *.
  - induction mid as [|a mid IH]; cbn; [apply NoDup_names; auto|]. inversion Hm; subst. constructor.
    + rewrite in_app_iff, in_map_iff. intros [X|[s [<- X]]]; auto. apply (Hd s X). left; auto.
    + apply IH; auto. intros s X Y. apply (Hd s X). right; auto.
  - inversion Hn; subst. constructor.
    + rewrite !in_app_iff, !in_map_iff. intros [[t [E X]]|[X|[t [E X]]]].
      * injection E as ->. apply H1, in_or_app; auto.
      * apply (Hd s); auto. left; auto.
      * injection E as ->. apply H1, in_or_app; auto.
    + apply IH; auto. intros t X. apply Hd. right; auto.
Qed.

Section PackLaws.
  Context {A : Type} (r : runtime A) (Hok : runtime_ok r).
  Let U := rt_unicode r.

  (** ** one tensor *)
  Lemma apart_call p p' before after b m a : pack_pattern U p before after ->
    reads U p' (star_apart before after) (star_joined before after) ->
    length b = length before -> length a = length after ->
    exists len, map len (map LName before) = b /\ map len (map LDots (seq 0 (length m))) = m /\ map len (map LName after) = a /\
      call_ok U Rearranging p' [] (b ++ m ++ a) (star_apart before after) (star_joined before after) (length m) len /\
      left_groups (length m) (star_apart before after) =
        map (fun s => [LName s]) before ++ map (fun i => [LDots i]) (seq 0 (length m)) ++ map (fun s => [LName s]) after /\
      right_groups (length m) (star_apart before after) (star_joined before after) =
        map (fun s => [LName s]) before ++ [map LDots (seq 0 (length m))] ++ map (fun s => [LName s]) after.
  Proof.
    intros [_ [Hnd Hnm]] Hr Lb La. assert (HU : unicode_ok U) by apply (ro_unicode r Hok).
    set (e := length m). set (L := star_apart before after). set (R := star_joined before after).
    assert (Ne : ~ In ell_name (before ++ after)) by (eapply name_not_ell; eauto).
    assert (Nb : ~ In ell_name before) by (intros X; apply Ne, in_or_app; auto).
    assert (Na : ~ In ell_name after) by (intros X; apply Ne, in_or_app; auto).
    assert (EdL : has_dots L = true).
    { unfold has_dots, L, star_apart. rewrite !atoms_app, !atoms_names, !existsb_app. cbn. apply orb_true_r. }
    assert (EdR : has_dots R = true).
    { unfold has_dots, R, star_joined. rewrite !atoms_app, !atoms_names, !existsb_app. cbn. apply orb_true_r. }
    assert (EL : left_groups e L = map (fun s => [LName s]) before ++ map (fun i => [LDots i]) (seq 0 e) ++ map (fun s => [LName s]) after).
    { unfold left_groups. rewrite EdL. unfold L, star_apart. rewrite !groups_app, !groups_names by auto. cbn [groups item_groups stands_for_dots].
      rewrite app_nil_r. unfold atom_labels. cbn [stands_for_dots]. rewrite map_map. reflexivity. }
    assert (ER : right_groups e L R = map (fun s => [LName s]) before ++ [map LDots (seq 0 e)] ++ map (fun s => [LName s]) after).
    { unfold right_groups. rewrite EdL. unfold R, star_joined. rewrite !groups_app, !groups_names by auto. cbn [groups item_groups atoms_labels].
      unfold atom_labels. cbn [stands_for_dots]. rewrite !app_nil_r. reflexivity. }
    assert (CL : concat (left_groups e L) = map LName before ++ map LDots (seq 0 e) ++ map LName after).
    { rewrite EL, !concat_app, !concat_single. reflexivity. }
    assert (CR : concat (right_groups e L R) = map LName before ++ map LDots (seq 0 e) ++ map LName after).
    { rewrite ER, !concat_app, !concat_single. cbn [concat]. rewrite app_nil_r. reflexivity. }
    destruct (single_call U Rearranging p' (b ++ m ++ a) L R e) as [len [Hl Hc]]; auto.
    - repeat split.
      + unfold has_numbers, L, star_apart. rewrite !atoms_app, !atoms_names, !existsb_app, !names_no by auto. reflexivity.
      + unfold has_numbers, R, star_joined. rewrite !atoms_app, !atoms_names, !existsb_app, !names_no by auto. reflexivity.
      + unfold L, R, star_apart, star_joined. rewrite !keys_app, !keys_names. apply incl_refl.
      + unfold L, R, star_apart, star_joined. rewrite !keys_app, !keys_names. apply incl_refl.
    - congruence.
    - intros _ [l [X _]]. unfold L, star_apart, axes_named in X. rewrite !in_app_iff, !in_map_iff in X. cbn in X.
      destruct X as [[s [X _]]|[[X|[]]|[s [X _]]]]; discriminate.
    - unfold rank_fits. rewrite EdL. unfold L, star_apart, axes_named. rewrite !app_length, !map_length. cbn. unfold e. lia.
    - rewrite EL, !app_length, !map_length, seq_length. unfold e. lia.
    - rewrite EL. repeat (apply Forall_app; split); apply single_groups.
    - rewrite CL. apply NoDup_around; auto; [apply NoDup_dots|]. intros s _ X. apply in_map_iff in X as [? [X _]]. discriminate.
    - rewrite CL, CR. intros x X. rewrite !in_app_iff, !in_map_iff in X.
      repeat match goal with H : _ \/ _ |- _ => destruct H as [H|H] end; destruct X as [s [<- _]]; exact I.
    - rewrite CL, !map_app in Hl. apply app_same_len in Hl as [H1 H2]; [|rewrite !map_length; auto].
      apply app_same_len in H2 as [H2 H3]; [|rewrite !map_length, seq_length; auto].
      exists len. auto 8.
  Qed.

  Lemma pack_one_moves p p' before after x y ps : wf x -> pack_pattern U p before after ->
    reads U p' (star_apart before after) (star_joined before after) ->
    pack r [x] p = Ok (y, ps) ->
    rearrange r (One x) p' [] = Ok y /\ prodn (named_dims before after (shp x)) <> 0.
  Proof.
    intros Hw Hp Hr H. apply (pack_iff r [x] p before after y ps Hok Hp) in H; [|constructor; auto].
    destruct H as [b [a [ms [Lb [La [_ [P [_ HC]]]]]]]].
    destruct HC as [Wy [Sy [Ln G]]]. destruct ms as [|m [|? ?]]; try discriminate.
    destruct (G 0 m x eq_refl eq_refl) as [_ [Sx Gx]]. cbn [offset firstn map list_sum fold_right] in Gx.
    split.
    - destruct (apart_call p p' before after b m a Hp Hr Lb La) as [len [Eb [Em [Ea [Hc [EL ER]]]]]].
      apply (rearrange_iff r Hok x p' [] (star_apart before after) (star_joined before after) (length m) len y); auto.
      + constructor.
      + intros s [].
      + rewrite Sx. exact Hc.
      + rewrite EL, ER. split; [exact Wy|]. split.
        * rewrite Sy. unfold gshape. rewrite !map_app. cbn [map].
          fold (gshape len (map (fun s => [LName s]) before)) (gshape len (map (fun s => [LName s]) after)).
          rewrite !gshape_single by apply single_groups. rewrite !concat_single, Eb, Em, Ea. cbn [map list_sum fold_right]. rewrite Nat.add_0_r. reflexivity.
        * intros ix Hi. unfold gindex. rewrite !map_app. cbn [map].
          fold (gindex len ix (map (fun s => [LName s]) before)) (gindex len ix (map (fun s => [LName s]) after)) (gindex len ix (map (fun i => [LDots i]) (seq 0 (length m)))).
          rewrite !gindex_single by apply single_groups. rewrite !concat_single, Em. symmetry.
          rewrite <- (Nat.add_0_l (ravel m _)). apply Gx.
          -- rewrite <- Eb. apply inb_within. eapply within_incl; [|exact Hi]. rewrite !concat_app, !concat_single. intros z Z. rewrite !in_app_iff. auto.
          -- rewrite <- Em at 1. apply inb_within. eapply within_incl; [|exact Hi]. rewrite !concat_app, !concat_single. intros z Z. rewrite !in_app_iff. auto.
          -- rewrite <- Ea. apply inb_within. eapply within_incl; [|exact Hi]. rewrite !concat_app, !concat_single. intros z Z. rewrite !in_app_iff. auto.
    - unfold named_dims. rewrite Sx, <- Lb, <- La. rewrite firstn_app, Nat.sub_diag, firstn_all. cbn [firstn]. rewrite app_nil_r.
      rewrite app_assoc, app_length, Nat.add_sub. rewrite skipn_app, Nat.sub_diag, skipn_all. exact P.
  Qed.

  Lemma pack_one_iff p p' before after x y : wf x -> pack_pattern U p before after ->
    reads U p' (star_apart before after) (star_joined before after) ->
    ((exists ps, pack r [x] p = Ok (y, ps)) <->
     rearrange r (One x) p' [] = Ok y /\ prodn (named_dims before after (shp x)) <> 0).
  Proof.
    intros Hw Hp Hr. split; [intros [ps H]; eapply pack_one_moves; eauto|]. intros [H P].
    assert (HU : unicode_ok U) by apply (ro_unicode r Hok).
    destruct (proj1 (rearrange_accepts r Hok x p' [] (NoDup_nil _) Hw)) as [_ [L [R [e [len Hc]]]]]; [eauto|].
    destruct (reads_fun U HU _ _ _ _ _ Hr (co_reads _ _ _ _ _ _ _ _ _ Hc)) as [<- <-].
    pose proof (co_rank _ _ _ _ _ _ _ _ _ Hc) as Hk. unfold rank_fits in Hk.
    assert (EdL : has_dots (star_apart before after) = true).
    { unfold has_dots, star_apart. rewrite !atoms_app, !atoms_names, !existsb_app. cbn. apply orb_true_r. }
    rewrite EdL in Hk. unfold star_apart, axes_named in Hk. rewrite !app_length, !map_length in Hk. cbn in Hk.
    destruct (shape_split (shp x) (length before) (length after)) as [b [m [a [Es [Lb La]]]]]; [lia|].
    assert (P' : prodn (b ++ a) <> 0).
    { revert P. unfold named_dims. rewrite Es, <- Lb, <- La. rewrite firstn_app, Nat.sub_diag, firstn_all. cbn [firstn]. rewrite app_nil_r.
      rewrite app_assoc, app_length, Nat.add_sub. rewrite skipn_app, Nat.sub_diag, skipn_all. auto. }
    destruct (pack_layout r [x] p before after b a [m] Hok Hp Lb La) as [y' [Hy _]]; auto; [discriminate|].
    destruct (pack_one_moves p p' before after x y' _ Hw Hp Hr Hy) as [H' _].
    rewrite H in H'. injection H' as <-. eauto.
  Qed.

  (** ** tensors without dimensions under the star *)
  Lemma stack_call p' i before after b n a :
    reads U p' (axes_named (i :: before ++ after)) (axes_named (before ++ [i] ++ after)) ->
    NoDup (i :: before ++ after) ->
    length b = length before -> length a = length after ->
    exists len, len (LName i) = n /\ map len (map LName before) = b /\ map len (map LName after) = a /\
      call_ok U Rearranging p' [] (n :: b ++ a) (axes_named (i :: before ++ after)) (axes_named (before ++ [i] ++ after)) 0 len /\
      left_groups 0 (axes_named (i :: before ++ after)) = map (fun s => [LName s]) (i :: before ++ after) /\
      right_groups 0 (axes_named (i :: before ++ after)) (axes_named (before ++ [i] ++ after)) = map (fun s => [LName s]) (before ++ [i] ++ after).
  Proof.
    intros Hr Hnd Lb La. assert (HU : unicode_ok U) by apply (ro_unicode r Hok).
    set (L := axes_named (i :: before ++ after)). set (R := axes_named (before ++ [i] ++ after)).
    assert (D : forall l, has_dots (axes_named l) = false) by (intros l; unfold has_dots; rewrite atoms_names, names_no; auto).
    assert (EL : left_groups 0 L = map (fun s => [LName s]) (i :: before ++ after)).
    { unfold left_groups, L. rewrite D, groups_names by discriminate. reflexivity. }
    assert (ER : right_groups 0 L R = map (fun s => [LName s]) (before ++ [i] ++ after)).
    { unfold right_groups, L, R. rewrite D, groups_names by discriminate. reflexivity. }
    destruct (single_call U Rearranging p' (n :: b ++ a) L R 0) as [len [Hl Hc]]; auto.
    - repeat split.
      + unfold has_numbers, L. rewrite atoms_names, names_no; auto.
      + unfold has_numbers, R. rewrite atoms_names, names_no; auto.
      + unfold L, R. rewrite !keys_names. intros s. cbn [In]. rewrite !in_app_iff. cbn [In]. tauto.
      + unfold L, R. rewrite !keys_names. intros s. cbn [In]. rewrite !in_app_iff. cbn [In]. tauto.
    - unfold L, R. rewrite !D. reflexivity.
    - unfold L. rewrite D. discriminate.
    - unfold rank_fits, L. rewrite D. split; auto. unfold axes_named. rewrite map_length. cbn [length]. rewrite !app_length. lia.
    - rewrite EL, map_length. cbn [length]. rewrite !app_length. lia.
    - rewrite EL. apply single_groups.
    - rewrite EL, concat_single. apply NoDup_names; auto.
    - rewrite EL, ER, !concat_single. intros x X. rewrite in_app_iff, !in_map_iff in X. destruct X as [[s [<- _]]|[s [<- _]]]; exact I.
    - rewrite EL, concat_single in Hl. cbn [map] in Hl. rewrite !map_app in Hl. injection Hl as H1 Hl.
      apply app_same_len in Hl as [H2 H3]; [|rewrite !map_length; auto].
      exists len. auto 8.
  Qed.

  Lemma offset_flat k ms : (forall m, In m ms -> m = []) -> k <= length ms -> offset ms k = k.
  Proof.
    unfold offset. revert ms. induction k as [|k IH]; intros ms H Hk; [reflexivity|]. destruct ms as [|m ms]; [cbn in Hk; lia|].
    rewrite (H m (or_introl eq_refl)). cbn [firstn map list_sum fold_right]. fold (list_sum (map prodn (firstn k ms))).
    rewrite IH; [reflexivity| |cbn in Hk; lia]. intros m' Hm. apply H. right; auto.
  Qed.
  Lemma total_flat ms : (forall m, In m ms -> m = []) -> list_sum (map prodn ms) = length ms.
  Proof. intros H. pose proof (offset_flat (length ms) ms H (le_n _)) as E. unfold offset in E. rewrite firstn_all in E. exact E. Qed.

  Lemma pack_stack_moves p p' i before after ts y ps : Forall wf ts -> pack_pattern U p before after ->
    reads U p' (axes_named (i :: before ++ after)) (axes_named (before ++ [i] ++ after)) ->
    (forall t, In t ts -> length (shp t) = length before + length after) ->
    pack r ts p = Ok (y, ps) ->
    ps = map (fun _ => []) ts /\ rearrange r (Many ts) p' [] = Ok y /\ (forall t, In t ts -> prodn (shp t) <> 0).
  Proof.
    intros Hw Hp Hr Hlen H. apply (pack_iff r ts p before after y ps Hok Hp) in H; [|auto].
    destruct H as [b [a [ms [Lb [La [Hne [P [-> HC]]]]]]]]. assert (HU : unicode_ok U) by apply (ro_unicode r Hok).
    pose proof (Forall2_shp_consists _ _ _ _ _ HC) as [HF _].
    assert (Hm : forall m, In m ms -> m = []).
    { clear -HF Hlen Lb La. induction HF as [|t m ts ms Es _ IH]; [intros ? []|]. intros m' [<-|X]; [|apply IH; auto; intros t' X'; apply Hlen; right; auto].
      specialize (Hlen t (or_introl eq_refl)). rewrite Es, !app_length in Hlen. destruct m; auto. cbn in Hlen. lia. }
    assert (Hs : forall t, In t ts -> shp t = b ++ a).
    { clear -HF Hm. induction HF as [|t m ts ms Es _ IH]; [intros ? []|]. intros t' [<-|X]; [|apply IH; auto; intros m' X'; apply Hm; right; auto].
      rewrite Es, (Hm m (or_introl eq_refl)). reflexivity. }
    split.
    { clear -HF Hm. induction HF as [|t m ts ms Es _ IH]; [reflexivity|]. cbn [map]. rewrite (Hm m (or_introl eq_refl)). cbn [map]. f_equal. apply IH. intros m' X. apply Hm. right; auto. }
    split; [|intros t Ht; rewrite (Hs t Ht); exact P].
    rewrite Forall_forall in Hw.
    destruct (stack_Ok ts (b ++ a) Hne) as [t [Et [Wt [St Gt]]]]; [intros t Ht; split; auto|].
    assert (E : rearrange r (Many ts) p' [] = rearrange r (One t) p' []) by (apply many_stack; auto). rewrite E.
    assert (Hnd : NoDup (i :: before ++ after)).
    { destruct Hr as [l [q [_ [[tk [_ [_ [_ [X|X]]]]] _]]]]; [discriminate|]. rewrite keys_names in X. cbn [andb negb] in X.
      assert (EF : forall l : list pystr, filter (fun _ => true) l = l) by (induction l0 as [|c l0 IH]; cbn; congruence).
      rewrite EF in X. exact X. }
    destruct (stack_call p' i before after b (length ts) a Hr Hnd Lb La) as [len [Ei [Eb [Ea [Hc [EL ER]]]]]].
    apply (rearrange_iff r Hok t p' [] _ _ 0 len y) with (4 := eq_rect_r (fun s => call_ok _ _ _ _ s _ _ _ _) Hc St); auto.
    - constructor.
    - intros s [].
    - destruct HC as [Wy [Sy [Ln G]]]. rewrite EL, ER. split; [exact Wy|].
      assert (ER' : forall f, map f (map LName (before ++ [i] ++ after)) = map f (map LName before) ++ [f (LName i)] ++ map f (map LName after) :> list nat)
        by (intros f; rewrite !map_app; reflexivity).
      split.
      + rewrite gshape_single by apply single_groups. rewrite concat_single, ER', Ei, Eb, Ea, Sy. rewrite total_flat by auto. rewrite Ln. reflexivity.
      + intros ix Hi. rewrite !gindex_single by apply single_groups. rewrite !concat_single in *. rewrite ER'.
        cbn [map]. rewrite !map_app.
        assert (Wi : forall s, In s (i :: before ++ after) -> ix (LName s) < len (LName s)).
        { intros s X. apply Hi, in_or_app. left. apply in_map; auto. }
        assert (Hk : ix (LName i) < length ts) by (rewrite <- Ei; apply Wi; left; auto).
        destruct (nth_error ts (ix (LName i))) as [tk|] eqn:Etk; [|apply nth_error_None in Etk; lia].
        rewrite (Gt _ _ tk Etk).
        destruct (nth_error ms (ix (LName i))) as [m|] eqn:Emk; [|apply nth_error_None in Emk; lia].
        destruct (G _ m tk Emk Etk) as [_ [_ Gk]]. assert (m = []) by (apply Hm; eapply nth_error_In; eauto). subst m.
        rewrite offset_flat in Gk by (auto; lia).
        specialize (Gk (map ix (map LName before)) [] (map ix (map LName after))). cbn [ravel app] in Gk. rewrite Nat.add_0_r in Gk. symmetry. apply Gk.
        * rewrite <- Eb. apply inb_within. intros s X. apply in_map_iff in X as [s' [<- X]]. apply Wi. right. apply in_or_app; auto.
        * reflexivity.
        * rewrite <- Ea. apply inb_within. intros s X. apply in_map_iff in X as [s' [<- X]]. apply Wi. right. apply in_or_app; auto.
  Qed.

  Lemma pack_stack_iff p p' i before after ts y : Forall wf ts -> pack_pattern U p before after ->
    reads U p' (axes_named (i :: before ++ after)) (axes_named (before ++ [i] ++ after)) ->
    (forall t, In t ts -> length (shp t) = length before + length after) ->
    (pack r ts p = Ok (y, map (fun _ => []) ts) <->
     rearrange r (Many ts) p' [] = Ok y /\ forall t, In t ts -> prodn (shp t) <> 0).
  Proof.
    intros Hw Hp Hr Hlen. split; [intros H; eapply pack_stack_moves; eauto|]. intros [H P].
    assert (Hst : exists t, t_stack ts = Ok t).
    { destruct (t_stack ts) as [t|ex] eqn:E; [eauto|]. exfalso. destruct ts as [|t0 ts].
      - unfold rearrange, api_rearrange in H. rewrite (many_err r (RStr s_rearrange) [] TypeError) in H; auto; [discriminate|intros s []].
      - unfold rearrange, api_rearrange in H. rewrite (many_err r (RStr s_rearrange) (t0 :: ts) ex) in H; auto; [discriminate|intros s []|right; split; auto; discriminate]. }
    destruct Hst as [t Et]. destruct (stack_inv ts t Et) as [Hne [s Hs]].
    assert (Ls : length s = length before + length after).
    { destruct ts as [|t0 ts]; [congruence|]. rewrite <- (Hs t0) by (left; auto). apply Hlen. left; auto. }
    destruct (shape_split s (length before) (length after)) as [b [m [a [Es [Lb La]]]]]; [lia|].
    assert (m = []). { rewrite Es, !app_length in Ls. destruct m; auto. cbn in Ls. lia. } subst m. cbn [app] in Es.
    destruct (pack_layout r ts p before after b a (map (fun _ => []) ts) Hok Hp Lb La) as [y' [Hy _]]; auto.
    - clear -Hs Es. induction ts as [|t0 ts IH]; constructor; [cbn [app]; rewrite <- Es; apply Hs; left; auto|]. apply IH. intros t' X. apply Hs. right; auto.
    - rewrite <- Es. destruct ts as [|t0 ts]; [congruence|]. rewrite <- (Hs t0) by (left; auto). apply P. left; auto.
    - rewrite map_map in Hy. cbn [map] in Hy.
      destruct (pack_stack_moves p p' i before after ts y' _ Hw Hp Hr Hlen Hy) as [_ [H' _]].
      rewrite H in H'. injection H' as <-. exact Hy.
  Qed.
End PackLaws.
