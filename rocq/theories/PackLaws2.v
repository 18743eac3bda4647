(** * unpack and rearrange *)
From Verif Require Import Py Tensor ListFacts TensorFacts SpecSem SpecGrammar SpecPattern SpecPacking SpecShape SpecOps Parsing Recipe Ops Backends Api Packing ParseFacts ParseFacts2 ParseFacts3 StepFacts FrontFacts FrontFacts2 FrontFacts3 MainFacts ReduceFacts MainFacts3 CallFacts ApiFacts ApiFacts2 ApiFacts3 ApiFacts4 ApiFacts7 RelabelLaws PackFacts PackFacts2 PackFacts3 PackFacts4 PackFacts5 PackLaws.

Definition op1 (sz : pystr * Z) : bool := (snd sz =? -1)%Z.

Lemma closed_app p1 p2 : closed_shape (p1 ++ p2) <-> closed_shape p1 /\ closed_shape p2.
Proof.
  unfold closed_shape. split.
  - intros H. split; intros d X; apply H, in_or_app; auto.
  - intros [H1 H2] d X. apply in_app_iff in X as [X|X]; auto.
Qed.
Lemma closed_no p : closed_shape p -> ~ In (-1)%Z p.
Proof. intros H X. specialize (H _ X). lia. Qed.
Lemma all_given (f : pystr -> nat) l : (forall s z, In (s, z) l -> z <> (-1)%Z -> Z.of_nat (f s) = z) -> filter op1 l = [] ->
  closed_shape (map snd l) /\ map (fun sz => f (fst sz)) l = to_nats (map snd l).
Proof.
  intros H E. induction l as [|[s z] l IH]; [split; [intros d []|reflexivity]|].
  cbn [filter] in E. unfold op1 at 1 in E. cbn [snd] in E. destruct (Z.eqb_spec z (-1)) as [|Hz]; [discriminate|].
  destruct IH as [I1 I2]; auto; [intros; apply H; auto; right; auto|].
  pose proof (H s z (or_introl eq_refl) Hz) as Hs. split.
  - intros d [<-|X]; [cbn; lia|apply I1; auto].
  - unfold to_nats in *. cbn [map fst snd]. f_equal; [lia|exact I2].
Qed.
Lemma none_open l : closed_shape (map snd l) -> filter op1 l = [].
Proof.
  intros H. induction l as [|[s z] l IH]; [reflexivity|]. cbn [filter]. unfold op1 at 1. cbn [snd].
  destruct (Z.eqb_spec z (-1)) as [->|_]; [exfalso; apply (closed_no _ H); left; auto|]. apply IH. intros d X. apply H. right; auto.
Qed.
Lemma nats_given (f : pystr -> nat) l : closed_shape (map snd l) -> map (fun sz => f (fst sz)) l = to_nats (map snd l) ->
  forall s z, In (s, z) l -> Z.of_nat (f s) = z.
Proof.
  intros H E. induction l as [|[s z] l IH]; [intros ? ? []|]. unfold to_nats in *. cbn [map fst snd] in *. injection E as E1 E2.
  intros s' z' [[= <- <-]|X].
  - rewrite E1. specialize (H z (or_introl eq_refl)). lia.
  - apply IH; auto. intros d Y. apply H. right; auto.
Qed.
Lemma filter_one {X} (f : X -> bool) l : length (filter f l) <= 1 -> filter f l <> [] ->
  exists l1 a l2, l = l1 ++ a :: l2 /\ f a = true /\ filter f l1 = [] /\ filter f l2 = [].
Proof.
  induction l as [|a l IH]; cbn [filter]; [congruence|]. destruct (f a) eqn:E; cbn [length]; intros H Hn.
  - exists [], a, l. repeat split; auto. destruct (filter f l); [reflexivity|cbn in H; lia].
  - destruct (IH H Hn) as [l1 [b [l2 [-> [H1 [H2 H3]]]]]]. exists (a :: l1), b, l2. cbn [filter app]. rewrite E. auto.
Qed.
Lemma filter_none_compl {X} (f : X -> bool) l : filter f l = [] -> filter (fun x => negb (f x)) l = l.
Proof.
  induction l as [|a l IH]; [reflexivity|]. cbn [filter]. destruct (f a); [discriminate|]. cbn [negb]. intros H. f_equal. auto.
Qed.

Lemma fills_iff (f : pystr -> nat) l :
  let m := map (fun sz => f (fst sz)) l in
  (forall s z, In (s, z) l -> z <> (-1)%Z -> Z.of_nat (f s) = z) /\ length (filter op1 l) <= 1 /\
  (filter op1 l <> [] -> prodn (map (fun sz => f (fst sz)) (filter (fun sz => negb (op1 sz)) l)) <> 0)
  <-> fills (map snd l) (prodn m) m.
Proof.
  intros m. split.
  - intros [H1 [H2 H3]]. split; auto. assert (D : filter op1 l = [] \/ filter op1 l <> []) by (destruct (filter op1 l); [left; auto|right; discriminate]).
    destruct D as [D|D]; [left; apply all_given; auto|]. right. specialize (H3 D).
    destruct (filter_one op1 l H2 D) as [l1 [[s z] [l2 [-> [E [E1 E2]]]]]]. unfold op1 in E. cbn [snd] in E. apply Z.eqb_eq in E. subst z.
    destruct (all_given f l1) as [C1 M1]; auto; [intros; apply H1; auto; apply in_or_app; auto|].
    destruct (all_given f l2) as [C2 M2]; auto; [intros; apply H1; auto; apply in_or_app; right; right; auto|].
    exists (map snd l1), (map snd l2), (f s). rewrite map_app. cbn [map snd]. repeat split; auto.
    + rewrite filter_app in H3. cbn [filter] in H3. unfold op1 at 2 in H3. cbn [snd] in H3. cbn [Z.eqb Pos.eqb negb] in H3.
      rewrite (filter_none_compl op1 l1 E1), (filter_none_compl op1 l2 E2) in H3. rewrite map_app, M1, M2 in H3.
      unfold to_nats in *. rewrite map_app. exact H3.
    + unfold m. rewrite map_app. cbn [map fst]. rewrite M1, M2. reflexivity.
  - intros [_ [[C M]|[p1 [p2 [k [E [C1 [C2 [P M]]]]]]]]].
    + pose proof (none_open _ C) as O. rewrite O. split; [intros s z X _; eapply nats_given; eauto|]. split; [cbn; lia|congruence].
    + assert (S1 : exists l1 s l2, l = l1 ++ (s, (-1)%Z) :: l2 /\ map snd l1 = p1 /\ map snd l2 = p2).
      { clear -E. revert p1 E. induction l as [|[s z] l IH]; intros [|d p1] E; cbn [map app snd] in E; try discriminate.
        - injection E as -> E. exists [], s, l. auto.
        - injection E as -> E. destruct (IH _ E) as [l1 [s' [l2 [-> [<- <-]]]]]. exists ((s, d) :: l1), s', l2. auto. }
      destruct S1 as [l1 [s [l2 [-> [<- <-]]]]]. unfold m in M. rewrite map_app in M. cbn [map fst] in M.
      apply app_same_len in M as [M1 M2]; [|unfold to_nats; rewrite !map_length; auto]. injection M2 as Mk M2.
      pose proof (none_open _ C1) as O1. pose proof (none_open _ C2) as O2.
      assert (F1 : filter op1 (l1 ++ (s, (-1)%Z) :: l2) = [(s, (-1)%Z)]) by (rewrite filter_app, O1; cbn; rewrite O2; reflexivity).
      assert (F2 : filter (fun sz => negb (op1 sz)) (l1 ++ (s, (-1)%Z) :: l2) = l1 ++ l2).
      { rewrite filter_app, (filter_none_compl op1 l1 O1). cbn [filter]. rewrite (filter_none_compl op1 l2 O2). reflexivity. }
      rewrite F1, F2. split; [|split; [cbn; lia|]].
      * intros s' z X Hz. apply in_app_iff in X as [X|[X|X]]; [eapply (nats_given f l1); eauto|congruence|eapply (nats_given f l2); eauto].
      * intros _. rewrite map_app, M1, M2. unfold to_nats in *. rewrite map_app in P. exact P.
Qed.

Lemma filter_map_comm {X Y} (f : X -> Y) (P : Y -> bool) l : filter P (map f l) = map f (filter (fun x => P (f x)) l).
Proof. induction l as [|a l IH]; [reflexivity|]. cbn. destruct (P (f a)); cbn; rewrite IH; reflexivity. Qed.
Lemma combine_fst {X Y} (l : list X) (m : list Y) : length m = length l -> map fst (combine l m) = l.
Proof. revert m; induction l as [|a l IH]; intros [|b m] H; try discriminate; auto. cbn. f_equal. apply IH. cbn in H. lia. Qed.
Lemma combine_snd {X Y} (l : list X) (m : list Y) : length m = length l -> map snd (combine l m) = m.
Proof. revert m; induction l as [|a l IH]; intros [|b m] H; try discriminate; auto. cbn. f_equal. apply IH. cbn in H. lia. Qed.

Lemma in_given names q s z : In (s, z) (given names q) <-> In (s, z) (combine names q) /\ z <> (-1)%Z.
Proof.
  unfold given. rewrite filter_In. split; intros [H1 H2]; split; auto.
  - destruct (Z.eqb_spec z (-1)); [discriminate|auto].
  - destruct (Z.eqb_spec z (-1)); [contradiction|auto].
Qed.
Lemma given_names names q s : In s (map fst (given names q)) -> In s names.
Proof. intros H. apply in_map_iff in H as [[s' z] [<- H]]. apply in_given in H as [H _]. apply in_combine_l in H. exact H. Qed.
Lemma given_NoDup names q : NoDup names -> length q = length names -> NoDup (map fst (given names q)).
Proof.
  intros Hn Hl. unfold given. rewrite <- (combine_fst names q Hl) in Hn. induction (combine names q) as [|[s z] l IH]; [constructor|].
  cbn [map fst] in Hn. inversion Hn; subst. cbn [filter]. destruct (negb _); auto. cbn [map fst]. constructor; auto.
  intros X. apply H1. apply in_map_iff in X as [sz [E X]]. apply filter_In in X as [X _]. apply in_map_iff. eauto.
Qed.

Lemma unknown_given names q s z : NoDup names -> length q = length names -> In (s, z) (combine names q) ->
  unknown (map fst (given names q)) (LName s) = op1 (s, z).
Proof.
  intros Hn Hl H. unfold unknown, op1. cbn [snd]. destruct (Z.eqb_spec z (-1)) as [->|Hz].
  - destruct (str_mem s (map fst (given names q))) eqn:E; [exfalso|reflexivity]. apply str_mem_In in E. apply in_map_iff in E as [[s' z'] [Es X]].
    cbn in Es. subst s'. apply in_given in X as [X Hz]. rewrite <- (combine_fst names q Hl) in Hn. clear Hl.
    induction (combine names q) as [|[t w] l IH]; [destruct H|]. cbn [map fst] in Hn. inversion Hn; subst.
    destruct H as [[= -> ->]|H], X as [X|X].
    + congruence.
    + apply H2. apply in_map_iff. exists (s, z'). auto.
    + injection X as -> ->. apply H2. apply in_map_iff. exists (s, (-1)%Z). auto.
    + auto.
  - assert (E : str_mem s (map fst (given names q)) = true); [|rewrite E; reflexivity].
    apply str_mem_In. apply in_map_iff. exists (s, z). split; auto. apply in_given; auto.
Qed.

Lemma names_of_pairs (names : list pystr) (q : list Z) : length q = length names -> map LName names = map (fun sz : pystr * Z => LName (fst sz)) (combine names q).
Proof. intros H. rewrite <- (combine_fst names q H) at 1. rewrite map_map. reflexivity. Qed.

Lemma unknowns names q : NoDup names -> length q = length names ->
  filter (unknown (map fst (given names q))) (map LName names) = map (fun sz => LName (fst sz)) (filter op1 (combine names q)) /\
  filter (fun a => negb (unknown (map fst (given names q)) a)) (map LName names) = map (fun sz => LName (fst sz)) (filter (fun sz => negb (op1 sz)) (combine names q)).
Proof.
  intros Hn Hl. rewrite (names_of_pairs names q Hl), !filter_map_comm.
  split; f_equal; apply filter_ext_in; intros [s z] X; cbn [fst]; rewrite (unknown_given names q s z); auto.
Qed.

Section Unpack.
  Context {A : Type} (r : runtime A) (Hok : runtime_ok r).
  Let U := rt_unicode r.
  Context (p p' : pystr) (before names after : list pystr).
  Let L := star_named before names after.
  Let R := axes_named (before ++ names ++ after).
  Hypothesis Hp : pack_pattern U p before after.
  Hypothesis Hr : reads U p' L R.
  Hypothesis Hnm : Forall (axis_name U) names.

  Lemma un_nodup : NoDup (before ++ names ++ after).
  Proof.
    destruct Hr as [l [q [_ [_ [tk [_ [_ [_ [X|X]]]]]]]]]; [discriminate|]. unfold R in X. rewrite keys_names in X. cbn [andb negb] in X.
    assert (EF : forall l : list pystr, filter (fun _ => true) l = l) by (induction l0 as [|c l0 IH]; cbn; congruence).
    rewrite EF in X. exact X.
  Qed.
  Lemma un_nodup_names : NoDup names.
  Proof. pose proof un_nodup as H. apply NoDup_app_iff in H as [_ [H _]]. apply NoDup_app_iff in H as [H _]. exact H. Qed.

  Lemma un_dots : has_dots L = false.
  Proof.
    unfold has_dots, L, star_named. rewrite !atoms_app, !atoms_names, !existsb_app, !names_no by auto. cbn [orb]. unfold atoms. cbn [flat_map item_atoms].
    rewrite app_nil_r, names_no; auto.
  Qed.
  Lemma un_left : left_groups 0 L = map (fun s => [LName s]) before ++ [map LName names] ++ map (fun s => [LName s]) after.
  Proof.
    unfold left_groups. rewrite un_dots. unfold L, star_named. rewrite !groups_app, !groups_names by discriminate. cbn [groups item_groups].
    assert (E : forall l k, atoms_labels false 0 k (map AName l) = map LName l).
    { induction l as [|s l IH]; intros k; [reflexivity|]. cbn [map atoms_labels]. rewrite IH. reflexivity. }
    rewrite E. reflexivity.
  Qed.
  Lemma un_right : right_groups 0 L R = map (fun s => [LName s]) (before ++ names ++ after).
  Proof. unfold right_groups. rewrite un_dots. unfold R. rewrite groups_names by discriminate. reflexivity. Qed.
  Lemma un_keys : keys L = before ++ names ++ after /\ keys R = before ++ names ++ after.
  Proof.
    unfold L, R, star_named. rewrite !keys_app, !keys_names. split; auto. f_equal. f_equal.
    unfold keys, atoms. cbn [flat_map item_atoms]. rewrite app_nil_r. clear. induction names as [|s l IH]; [reflexivity|]. cbn. f_equal. exact IH.
  Qed.
  Lemma un_numbers : has_numbers L = false /\ has_numbers R = false.
  Proof.
    split.
    - unfold has_numbers, L, star_named. rewrite !atoms_app, !atoms_names, !existsb_app, !names_no by auto. cbn [orb]. unfold atoms. cbn [flat_map item_atoms].
      rewrite app_nil_r, names_no; auto.
    - unfold has_numbers, R. rewrite atoms_names, names_no; auto.
  Qed.

  Context (q : list Z) (Lq : length q = length names) (b : list nat) (n : nat) (a : list nat)
    (Lb : length b = length before) (La : length a = length after).
  Let sizes := given names q.

  Lemma un_fills len : let m := map len (map LName names) in
    ((forall s z, In (s, z) sizes -> Z.of_nat (len (LName s)) = z) /\
     length (filter (unknown (map fst sizes)) (map LName names)) <= 1 /\
     (filter (unknown (map fst sizes)) (map LName names) <> [] ->
      prodn (map len (filter (fun a => negb (unknown (map fst sizes) a)) (map LName names))) <> 0))
    <-> fills q (prodn m) m.
  Proof.
    intros m. pose proof (fills_iff (fun s => len (LName s)) (combine names q)) as F. cbv zeta beta in F.
    assert (Em : map (fun sz : pystr * Z => len (LName (fst sz))) (combine names q) = m).
    { unfold m. rewrite (names_of_pairs names q Lq), map_map. reflexivity. }
    rewrite Em, (combine_snd names q Lq) in F. rewrite <- F.
    destruct (unknowns names q un_nodup_names Lq) as [E1 E2]. fold sizes in E1, E2. rewrite E1, E2, map_length, map_map.
    split; intros [H1 [H2 H3]]; (split; [|split; auto]).
    - intros s z X Y. apply H1. apply in_given. auto.
    - intros X. apply H3. intros Y. apply map_eq_nil in Y. auto.
    - intros s z X. apply in_given in X as [X Y]. auto.
    - intros X. apply H3. intros Y. apply X. rewrite Y. reflexivity.
  Qed.

  Lemma un_call len :
    call_ok U Rearranging p' sizes (b ++ [n] ++ a) L R 0 len <->
    map len (map LName before) = b /\ map len (map LName after) = a /\
    prodn (map len (map LName names)) = n /\ fills q n (map len (map LName names)).
  Proof.
    assert (HU : unicode_ok U) by apply (ro_unicode r Hok).
    assert (ES : gshape len (left_groups 0 L) = map len (map LName before) ++ [prodn (map len (map LName names))] ++ map len (map LName after)).
    { rewrite un_left. unfold gshape. rewrite !map_app. cbn [map]. fold (gshape len (map (fun s => [LName s]) before)) (gshape len (map (fun s => [LName s]) after)).
      rewrite !gshape_single by apply single_groups. rewrite !concat_single. reflexivity. }
    split.
    - intros Hc. destruct (co_fits _ _ _ _ _ _ _ _ _ Hc) as [F1 [_ F3]]. rewrite ES in F1.
      apply app_same_len in F1 as [F1 F2]; [|rewrite !map_length; auto]. cbn [app] in F2. injection F2 as F2 F4. split; [exact F1|]. split; [exact F4|]. split; [exact F2|].
      { rewrite <- F2. apply (un_fills len). split; [exact F3|]. split.
        - apply (co_one _ _ _ _ _ _ _ _ _ Hc). rewrite un_left. apply in_or_app. right. left. reflexivity.
        - apply (co_div _ _ _ _ _ _ _ _ _ Hc). rewrite un_left. apply in_or_app. right. left. reflexivity. }
    - intros [E1 [E2 [E3 HF]]]. rewrite <- E3 in HF. apply (un_fills len) in HF as [F1 [F2 F3]].
      destruct un_keys as [K1 K2]. destruct un_numbers as [M1 M2].
      assert (OneG : forall g, In g (left_groups 0 L) -> (exists s, g = [LName s]) \/ g = map LName names).
      { rewrite un_left. intros g X. rewrite !in_app_iff, !in_map_iff in X. destruct X as [[s [<- _]]|[[<-|[]]|[s [<- _]]]]; eauto. }
      constructor.
      + exact Hr.
      + cbn. rewrite K1, K2. repeat split; auto using incl_refl.
      + intros X. exfalso. unfold R in X. unfold has_dots in X. rewrite atoms_names, names_no in X; auto. discriminate.
      + rewrite un_dots. discriminate.
      + unfold rank_fits. rewrite un_dots. split; auto. unfold L, star_named, axes_named. rewrite !app_length, !map_length. cbn. lia.
      + intros s X. apply given_names in X. split.
        * intros ->. apply (name_not_ell U names HU Hnm X).
        * apply in_or_app. left. rewrite K1, !in_app_iff. auto.
      + intros g X. destruct (OneG g X) as [[s ->]| ->]; [|exact F2]. cbn [filter]. destruct (unknown _ _); cbn; lia.
      + split; [rewrite ES; congruence|]. split; [|exact F1].
        intros k z X. exfalso. rewrite un_left, un_right in X. rewrite !concat_app, !concat_single in X. cbn [concat] in X. rewrite app_nil_r, !in_app_iff, !in_map_iff in X.
        repeat match goal with H : _ \/ _ |- _ => destruct H as [H|H] end; destruct X as [s [Y _]]; discriminate.
      + intros g X. destruct (OneG g X) as [[s ->]| ->]; [|exact F3]. cbn [filter]. destruct (unknown _ _) eqn:E; cbn; [discriminate|congruence].
      + intros [X _]. rewrite un_dots in X. discriminate.
  Qed.

  Lemma un_moves len m (x t : tensor A) : map len (map LName before) = b -> map len (map LName after) = a -> map len (map LName names) = m ->
    (moves (left_groups 0 L) (right_groups 0 L R) len x t <-> piece_of b a x 0 m t).
  Proof.
    intros E1 E2 E3. rewrite un_left, un_right. unfold moves, piece_of.
    rewrite gshape_single, concat_single by apply single_groups. rewrite !map_app, E1, E2, E3.
    assert (GI : forall ix, gindex len ix (map (fun s => [LName s]) before ++ [map LName names] ++ map (fun s => [LName s]) after)
      = map ix (map LName before) ++ [ravel m (map ix (map LName names))] ++ map ix (map LName after)).
    { intros ix. unfold gindex. rewrite !map_app. cbn [map]. fold (gindex len ix (map (fun s => [LName s]) before)) (gindex len ix (map (fun s => [LName s]) after)).
      rewrite !gindex_single by apply single_groups. rewrite !concat_single, E3. reflexivity. }
    assert (GR : forall ix, gindex len ix (map (fun s => [LName s]) before ++ map (fun s => [LName s]) names ++ map (fun s => [LName s]) after)
      = map ix (map LName before) ++ map ix (map LName names) ++ map ix (map LName after)).
    { intros ix. rewrite <- !map_app. rewrite gindex_single by apply single_groups. rewrite concat_single. rewrite !map_app. reflexivity. }
    split; intros [W [S G]]; (split; [exact W|]; split; [exact S|]).
    - intros ib im ia Ib Im Ia.
      set (ix := assign label_eqb (fun _ => 0) (map LName (before ++ names ++ after)) (ib ++ im ++ ia)).
      pose proof (inb_length _ _ Ib) as L1. pose proof (inb_length _ _ Im) as L2. pose proof (inb_length _ _ Ia) as L3.
      assert (Lm : length m = length names) by (rewrite <- E3, !map_length; auto).
      assert (Ei : map ix (map LName (before ++ names ++ after)) = ib ++ im ++ ia).
      { apply (assign_map label_eqb label_eqb_eq); [apply NoDup_names, un_nodup|]. rewrite map_length, !app_length. lia. }
      rewrite !map_app in Ei. apply app_same_len in Ei as [I1 Ei]; [|rewrite !map_length; lia]. apply app_same_len in Ei as [I2 I3]; [|rewrite !map_length; lia].
      specialize (G ix). rewrite GI, GR, I1, I2, I3 in G. apply G.
      assert (W0 : within len ix (map LName (before ++ names ++ after))).
      { apply inb_within. rewrite !map_app, E1, E2, E3, I1, I2, I3. rewrite !inb_app by auto. rewrite Ib, Im, Ia. reflexivity. }
      rewrite !concat_app, !concat_single. cbn [concat]. rewrite app_nil_r. intros z Z. apply W0. rewrite !map_app. rewrite !in_app_iff in *. tauto.
    - intros ix Hi. rewrite GI, GR. rewrite !concat_app, !concat_single in Hi. cbn [concat] in Hi. rewrite app_nil_r in Hi.
      rewrite <- (Nat.add_0_l (ravel m _)). apply G.
      + rewrite <- E1. apply inb_within. eapply within_incl; [|exact Hi]. intros z Z. rewrite !in_app_iff. auto.
      + rewrite <- E3. apply inb_within. eapply within_incl; [|exact Hi]. intros z Z. rewrite !in_app_iff. auto.
      + rewrite <- E2. apply inb_within. eapply within_incl; [|exact Hi]. intros z Z. rewrite !in_app_iff. auto.
  Qed.

  Lemma unpack_one_iff (x t : tensor A) : wf x -> shp x = b ++ [n] ++ a -> prodn (b ++ a) <> 0 -> tame (rt_lib r) q -> no_reserved sizes ->
    (unpack r x [q] p = Ok [t] <-> rearrange r (One x) p' sizes = Ok t).
  Proof.
    intros Hw Hs P HT Hres. assert (HU : unicode_ok U) by apply (ro_unicode r Hok).
    assert (Hnd : NoDup (map fst sizes)) by (apply given_NoDup; auto using un_nodup_names).
    assert (SL : slack [] q []) by (split; [intros ? []|right; reflexivity]).
    rewrite (unpack_exact r Hok x [] q [] p before after b n a [t] Hp Hs Lb La Hw P); [| |exact SL].
    2:{ intros z [<-|[]]. exact HT. }
    cbn [app length]. split.
    - intros [ms [F [_ [_ [T [Ln G]]]]]]. inversion F as [|? m ? ? Hf F' E1 E2]; subst. inversion F'; subst.
      specialize (T m eq_refl). specialize (G 0 m t eq_refl eq_refl). unfold suffix, offset, start in *. cbn [skipn firstn map list_sum fold_right Nat.leb offset] in *.
      assert (Lm : length m = length names).
      { rewrite <- Lq. destruct Hf as [_ [[_ ->]|[p1 [p2 [k [-> [_ [_ [_ ->]]]]]]]]]; unfold to_nats; [apply map_length|]. rewrite !app_length. cbn. rewrite !map_length. reflexivity. }
      set (len := assign label_eqb (fun _ => 0) (map LName (before ++ names ++ after)) (b ++ m ++ a)).
      assert (El : map len (map LName (before ++ names ++ after)) = b ++ m ++ a).
      { apply (assign_map label_eqb label_eqb_eq); [apply NoDup_names, un_nodup|]. rewrite map_length, !app_length. lia. }
      rewrite !map_app in El. apply app_same_len in El as [I1 El]; [|rewrite !map_length; lia]. apply app_same_len in El as [I2 I3]; [|rewrite !map_length; lia].
      assert (Tn : prodn m = n) by lia.
      assert (Hc : call_ok U Rearranging p' sizes (shp x) L R 0 len).
      { rewrite Hs. apply un_call. rewrite I1, I2, I3. split; auto. split; auto. split; auto. rewrite <- Tn. exact Hf. }
      apply (rearrange_iff r Hok x p' sizes L R 0 len t Hnd Hw Hres Hc). apply (un_moves len m x t I1 I3 I2). exact G.
    - intros H. destruct (proj1 (rearrange_accepts r Hok x p' sizes Hnd Hw)) as [_ [L' [R' [e [len Hc]]]]]; [eauto|].
      destruct (reads_fun U HU _ _ _ _ _ Hr (co_reads _ _ _ _ _ _ _ _ _ Hc)) as [<- <-].
      pose proof (co_rank _ _ _ _ _ _ _ _ _ Hc) as Hk. unfold rank_fits in Hk. rewrite un_dots in Hk. destruct Hk as [_ ->].
      apply (rearrange_iff r Hok x p' sizes L R 0 len t Hnd Hw Hres Hc) in H.
      rewrite Hs in Hc. apply un_call in Hc as [E1 [E2 [E3 HF]]]. set (m := map len (map LName names)) in *.
      apply (un_moves len m x t E1 E2 eq_refl) in H.
      exists [m]. split; [constructor; [rewrite E3; exact HF|constructor]|]. unfold suffix, offset. cbn [skipn firstn map list_sum fold_right].
      split; [lia|]. split; [lia|]. split; [intros m' [= <-]; cbn; lia|]. split; [reflexivity|].
      intros k m' t' Hm Ht. destruct k as [|[|k]]; try discriminate. injection Hm as <-. injection Ht as <-. exact H.
  Qed.
End Unpack.
