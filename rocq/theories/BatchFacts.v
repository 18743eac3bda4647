(** * One axis more, on both sides *)
From Verif Require Import Py Tensor ListFacts TensorFacts SpecSem SpecGrammar SpecForms SpecPattern SpecOps Parsing Compile Recipe Ops Backends Api StepFacts ParseFacts ParseFacts2 ParseFacts3 RecipeFacts InferFacts ApplyFacts FrontFacts FrontFacts2 FrontFacts3 MainFacts MainFacts2 ReduceFacts MainFacts3 CallFacts RelabelFacts Laws ApiFacts ApiFacts2 RelabelLaws UnitLaws ApiFacts4 ApiFacts6 SpecBatch.

(** ** Slices *)
Lemma ins_app {X} (l1 l2 : list X) v : firstn (length l1) (l1 ++ l2) ++ v :: skipn (length l1) (l1 ++ l2) = l1 ++ v :: l2.
Proof. now rewrite firstn_exact, skipn_exact. Qed.
Lemma ins_inb s n idx i k : length idx = length s -> k <= length s ->
  inb (firstn k s ++ n :: skipn k s) (firstn k idx ++ i :: skipn k idx) = (i <? n) && inb s idx.
Proof.
  intros E Hk. rewrite UnitLaws.inb_app by (rewrite !firstn_length; lia). cbn [inb].
  rewrite <- (firstn_skipn k s) at 3. rewrite <- (firstn_skipn k idx) at 3. rewrite UnitLaws.inb_app by (rewrite !firstn_length; lia).
  destruct (i <? n), (inb (firstn k s) (firstn k idx)); reflexivity.
Qed.
Lemma ins_length {X} k (v : X) l : k <= length l -> length (firstn k l ++ v :: skipn k l) = S (length l).
Proof. intros H. rewrite app_length. cbn [length]. rewrite firstn_length, skipn_length. lia. Qed.

Section Slices.
  Context {A : Type}.
  Implicit Types X x Y y : tensor A.

  Lemma slice_exists X k n s i : wf X -> k <= length s -> shp X = firstn k s ++ n :: skipn k s -> i < n -> exists x, slice_of k i X x /\ shp x = s.
  Proof.
    intros Hw Hk Hs Hi.
    destruct (tabulate_total s (fun idx => getr X (firstn k idx ++ i :: skipn k idx))) as [x Tx].
    { intros idx Hin. apply getr_wf; [exact Hw|]. rewrite Hs, ins_inb by (auto using inb_length). rewrite Hin. apply Nat.ltb_lt in Hi. now rewrite Hi. }
    exists x. destruct (tabulate_Ok _ _ _ Tx) as (Wx & Sx & Gx). split; [|exact Sx]. split; [exact Hw|]. split; [exact Wx|].
    rewrite Sx. split; [exact Hk|]. split; [eauto|]. intros idx El. destruct (inb s idx) eqn:Ei.
    - pose proof (Gx idx Ei) as G. unfold getr in G. destruct (get_wf x idx Wx) as [a Ha]; [now rewrite Sx|].
      rewrite Ha in G. cbn in G. rewrite Ha. destruct (get X _); cbn in G; congruence.
    - unfold get at 1. rewrite Sx, Ei. unfold get. rewrite Hs, ins_inb, Ei, andb_false_r by auto. reflexivity.
  Qed.
  Lemma slice_shape k i X x : slice_of k i X x -> shp X = firstn k (shp x) ++ count_at k X :: skipn k (shp x) /\ i < count_at k X.
  Proof.
    intros (_ & _ & Hk & (n & Hi & Hs) & _). unfold count_at. rewrite Hs.
    rewrite app_nth2; rewrite firstn_length, Nat.min_l by lia; [|lia]. rewrite Nat.sub_diag. auto.
  Qed.
  Lemma slice_fun k i X x x' : slice_of k i X x -> slice_of k i X x' -> x = x'.
  Proof.
    intros (_ & Wx & Hk & (n & Hi & Hs) & G) (_ & Wx' & Hk' & (n' & Hi' & Hs') & G').
    assert (E : shp x = shp x').
    { rewrite Hs in Hs'. apply (f_equal (fun l => firstn k l ++ skipn (S k) l)) in Hs'.
      assert (Z : forall (l : list nat) m, k <= length l -> firstn k (firstn k l ++ m :: skipn k l) ++ skipn (S k) (firstn k l ++ m :: skipn k l) = l).
      { intros l m H. rewrite firstn_app, skipn_app, firstn_firstn, Nat.min_id, firstn_length, Nat.min_l by lia.
        rewrite Nat.sub_diag. cbn [firstn]. rewrite app_nil_r. rewrite skipn_all2 by (rewrite firstn_length; lia).
        replace (S k - k) with 1 by lia. cbn [skipn app]. apply firstn_skipn. }
      rewrite !Z in Hs' by assumption. exact Hs'. }
    apply tensor_ext; auto. intros idx Hin. apply inb_length in Hin. rewrite G, G' by congruence. reflexivity.
  Qed.
  Lemma choose_list {P : nat -> tensor A -> Prop} n : (forall i, i < n -> exists y, P i y) ->
    exists ys, length ys = n /\ forall i, i < n -> exists y, nth_error ys i = Some y /\ P i y.
  Proof.
    induction n as [|n IH]; intros H; [exists []; split; [reflexivity|lia]|].
    destruct IH as (ys & El & Hy); [auto|]. destruct (H n) as [y Py]; [lia|].
    exists (ys ++ [y]). rewrite app_length. split; [cbn; lia|]. intros i Hi. destruct (Nat.eq_dec i n) as [->|Hne].
    - exists y. rewrite nth_error_app2, El, Nat.sub_diag by lia. auto.
    - rewrite nth_error_app1 by lia. apply Hy. lia.
  Qed.
  Definition take_out (k : nat) (idx : list nat) : list nat := firstn k idx ++ skipn (S k) idx.
  Lemma put_back k (v : nat) l : k <= length l -> nth k (firstn k l ++ v :: skipn k l) 0 = v /\ take_out k (firstn k l ++ v :: skipn k l) = l.
  Proof.
    intros H. split.
    - rewrite app_nth2; rewrite firstn_length, Nat.min_l by lia; [|lia]. now rewrite Nat.sub_diag.
    - unfold take_out. rewrite firstn_app, skipn_app, firstn_firstn, Nat.min_id, firstn_length, Nat.min_l by lia.
      rewrite Nat.sub_diag. cbn [firstn]. rewrite app_nil_r. rewrite skipn_all2 by (rewrite firstn_length; lia).
      replace (S k - k) with 1 by lia. cbn [skipn app]. apply firstn_skipn.
  Qed.
  Lemma split_at k (idx : list nat) : k < length idx -> idx = firstn k (take_out k idx) ++ nth k idx 0 :: skipn k (take_out k idx) /\ S (length (take_out k idx)) = length idx.
  Proof.
    intros H. unfold take_out. split.
    - rewrite firstn_app, firstn_firstn, Nat.min_id, firstn_length, Nat.min_l by lia. rewrite Nat.sub_diag. cbn [firstn]. rewrite app_nil_r.
      rewrite skipn_app, firstn_length, Nat.min_l by lia. rewrite Nat.sub_diag, skipn_all2 by (rewrite firstn_length; lia). cbn [skipn app].
      rewrite <- (firstn_skipn k idx) at 1. f_equal. clear - H. revert idx H. induction k as [|k IH]; intros [|a idx] H; cbn in H; try lia; [reflexivity|].
      cbn [skipn nth]. apply IH. lia.
    - rewrite app_length, firstn_length, skipn_length. lia.
  Qed.
  (** a tensor is given by its slices *)
  Lemma slices_fun k n s X Y : k <= length s -> shp X = firstn k s ++ n :: skipn k s -> shp Y = shp X -> wf X -> wf Y ->
    (forall i, i < n -> exists x, slice_of k i X x /\ slice_of k i Y x) -> X = Y.
  Proof.
    intros Hk Hs Hs' WX WY H. apply tensor_ext; auto. intros idx Hin. pose proof (inb_length _ _ Hin) as El.
    rewrite Hs, ins_length in El by exact Hk. destruct (split_at k idx) as [Ed Ejl]; [lia|].
    rewrite Ed in Hin. rewrite Hs, ins_inb in Hin by lia. apply andb_true_iff in Hin as [Hi _]. apply Nat.ltb_lt in Hi.
    destruct (H _ Hi) as (x & Sx & Sy). pose proof (slice_shape _ _ _ _ Sx) as [Shx _].
    destruct Sx as (_ & _ & Hk1 & _ & G). destruct Sy as (_ & _ & _ & _ & G').
    assert (El2 : length (take_out k idx) = length (shp x)). { apply (f_equal (@length nat)) in Shx. rewrite Hs, !ins_length in Shx by assumption. lia. }
    rewrite Ed. rewrite <- G, <- G' by exact El2. reflexivity.
  Qed.

  Lemma unslice {P : nat -> tensor A -> Prop} k n s : k <= length s -> (forall i, i < n -> exists y, P i y /\ wf y /\ shp y = s) ->
    exists Y, wf Y /\ shp Y = firstn k s ++ n :: skipn k s /\ forall i, i < n -> exists y, P i y /\ shp y = s /\ slice_of k i Y y.
  Proof.
    intros Hk H. destruct (choose_list n H) as (ys & El & Hy).
    destruct (tabulate_total (firstn k s ++ n :: skipn k s)
      (fun idx => match nth_error ys (nth k idx 0) with Some y => getr y (take_out k idx) | None => Err IndexError end)) as [Y TY].
    { intros idx Hin. pose proof (inb_length _ _ Hin) as Ei. rewrite ins_length in Ei by exact Hk.
      destruct (split_at k idx) as [E1 E2]; [lia|]. rewrite E1 in Hin. rewrite ins_inb in Hin by lia. apply andb_true_iff in Hin as [H1 H2].
      apply Nat.ltb_lt in H1. destruct (Hy _ H1) as (y & E & _ & Wy & Sy). rewrite E. apply getr_wf; [exact Wy|]. now rewrite Sy. }
    destruct (tabulate_Ok _ _ _ TY) as (WY & SY & GY). exists Y. split; [exact WY|]. split; [exact SY|].
    intros i Hi. destruct (Hy i Hi) as (y & E & Py & Wy & Sy). exists y. split; [exact Py|]. split; [exact Sy|].
    split; [exact WY|]. split; [exact Wy|]. rewrite Sy. split; [exact Hk|]. split; [eauto|]. intros idx Ei.
    destruct (put_back k i idx) as [E1 E2]; [lia|].
    destruct (inb s idx) eqn:Hin.
    - assert (In' : inb (firstn k s ++ n :: skipn k s) (firstn k idx ++ i :: skipn k idx) = true).
      { rewrite ins_inb, Hin by auto. apply Nat.ltb_lt in Hi. now rewrite Hi. }
      pose proof (GY _ In') as G. rewrite E1, E2, E in G. unfold getr in G.
      destruct (get_wf y idx Wy) as [a Ha]; [now rewrite Sy|]. rewrite Ha in *. destruct (get Y _); cbn in G; congruence.
    - unfold get at 1. rewrite Sy, Hin. unfold get. rewrite SY, ins_inb, Hin, andb_false_r by auto. reflexivity.
  Qed.
End Slices.

(** ** Meaning *)
Lemma in_more (a b : label) q1 q2 : In b (concat (q1 ++ [a] :: q2)) <-> b = a \/ In b (concat (q1 ++ q2)).
Proof. rewrite !concat_app, !in_app_iff. cbn [concat app In]. intuition congruence. Qed.
Section Outcomes.
  Context {A : Type} (g1 g2 h1 h2 : list (list label)) (a : label) (len : label -> nat) (h : bool) (red : list A -> result A).
  Implicit Types X x Y y : tensor A.
  Notation gl := (g1 ++ g2).
  Notation gr := (h1 ++ h2).
  Notation gl' := (g1 ++ [a] :: g2).
  Notation gr' := (h1 ++ [a] :: h2).
  Hypothesis Hl : ~ In a (concat gl).
  Hypothesis Hr : ~ In a (concat gr).

  Lemma gshape_more q1 q2 : gshape len (q1 ++ [a] :: q2) = firstn (length q1) (gshape len (q1 ++ q2)) ++ len a :: skipn (length q1) (gshape len (q1 ++ q2)).
  Proof.
    unfold gshape. rewrite !map_app. cbn [map prodn fold_right]. rewrite Nat.mul_1_r.
    replace (length q1) with (length (map (fun g => prodn (map len g)) q1)) by apply map_length. rewrite ins_app. reflexivity.
  Qed.
  Lemma gindex_more q1 q2 ix : gindex len ix (q1 ++ [a] :: q2) = firstn (length q1) (gindex len ix (q1 ++ q2)) ++ ix a :: skipn (length q1) (gindex len ix (q1 ++ q2)).
  Proof.
    unfold gindex. rewrite !map_app. cbn [map]. rewrite ravel1.
    replace (length q1) with (length (map (fun g => ravel (map len g) (map ix g)) q1)) by apply map_length. rewrite ins_app. reflexivity.
  Qed.
  Lemma get_slice q1 q2 X x ix : slice_of (length q1) (ix a) X x -> shp x = gshape len (q1 ++ q2) ->
    get X (gindex len ix (q1 ++ [a] :: q2)) = get x (gindex len ix (q1 ++ q2)).
  Proof.
    intros (_ & _ & _ & _ & G) E. rewrite gindex_more. symmetry. apply G. rewrite E. unfold gindex, gshape. now rewrite !map_length.
  Qed.
  Lemma missing_more : missing gl' gr' = missing gl gr.
  Proof.
    unfold missing. rewrite (concat_app g1 ([a] :: g2)). cbn [concat app]. rewrite !filter_app. cbn [filter].
    assert (E : forall b, b <> a -> existsb (label_eqb b) (concat gr') = existsb (label_eqb b) (concat gr)).
    { intros b Hb. apply eq_true_iff_eq. rewrite !existsb_exists. split; intros (c & Hc & Ec); exists c; split; auto.
      - apply in_more in Hc as [->|Hc]; [|exact Hc]. apply label_eqb_eq in Ec. contradiction.
      - apply in_more. now right. }
    assert (Ea : existsb (label_eqb a) (concat gr') = true).
    { apply existsb_exists. exists a. split; [apply in_more; now left|]. now apply label_eqb_eq. }
    rewrite Ea. cbn [negb]. rewrite (concat_app g1 g2), filter_app. f_equal; apply filter_ext_in; intros b Hb; f_equal; apply E; intros ->; apply Hl;
      rewrite concat_app; apply in_or_app; auto.
  Qed.
  Lemma missing_not : ~ In a (missing gl gr).
  Proof. intros H. apply filter_In in H as [H _]. exact (Hl H). Qed.
  Lemma elements_slice X x ix : slice_of (length g1) (ix a) X x -> shp x = gshape len gl ->
    elements X len gl' (missing gl gr) ix = elements x len gl (missing gl gr) ix.
  Proof.
    intros S E. unfold elements. apply map_ext. intros v.
    apply get_slice; [|exact E]. unfold assign. destruct (index_of label_eqb a (missing gl gr)) as [j|] eqn:Ej; [|exact S].
    exfalso. apply missing_not. apply nth_error_In with j. apply (index_of_Some label_eqb label_eqb_eq). exact Ej.
  Qed.

  Definition put (ix : label -> nat) (i : nat) : label -> nat := fun b => if label_eqb b a then i else ix b.
  Lemma put_at ix i : put ix i a = i.
  Proof. unfold put. now rewrite (proj2 (label_eqb_eq a a) eq_refl). Qed.
  Lemma put_other ix i b : b <> a -> put ix i b = ix b.
  Proof. intros H. unfold put. destruct (label_eqb b a) eqn:E; [apply label_eqb_eq in E; contradiction|reflexivity]. Qed.
  Lemma gindex_put gs ix i : ~ In a (concat gs) -> gindex len (put ix i) gs = gindex len ix gs.
  Proof. intros H. apply gindex_same. intros b Hb. apply put_other. intros ->. contradiction. Qed.
  Lemma elements_put x ix i axs : elements x len gl axs (put ix i) = elements x len gl axs ix.
  Proof.
    unfold elements. apply map_ext. intros v. f_equal. apply gindex_same. intros b Hb. unfold assign.
    destruct (index_of label_eqb b axs); [reflexivity|]. apply put_other. intros ->. contradiction.
  Qed.

  Lemma outcome_slice X x Y i : slice_of (length g1) i X x -> shp X = gshape len gl' -> shp x = gshape len gl ->
    outcome h red gl' gr' len X Y -> exists y, slice_of (length h1) i Y y /\ shp y = gshape len gr /\ outcome h red gl gr len x y.
  Proof.
    intros S EX Ex O.
    assert (Hi : i < len a).
    { pose proof (slice_shape _ _ _ _ S) as [_ Hi]. unfold count_at in Hi. rewrite EX, gshape_more, app_nth2 in Hi;
        rewrite firstn_length, Nat.min_l in * by (unfold gshape; rewrite map_length, app_length; lia); [|lia]. now rewrite Nat.sub_diag in Hi. }
    assert (HY : wf Y /\ shp Y = gshape len gr') by (destruct O as [[_ (W & E & _)]|[_ [_ (W & E & _)]]]; auto).
    destruct HY as [WY EY]. rewrite gshape_more in EY.
    destruct (slice_exists Y (length h1) (len a) (gshape len gr) i WY) as (y & Sy & Ey); [unfold gshape; rewrite map_length, app_length; lia|exact EY|exact Hi|].
    exists y. split; [exact Sy|]. split; [exact Ey|].
    assert (Wy : wf y) by apply Sy.
    assert (S' : forall ix, slice_of (length g1) (put ix i a) X x) by (intros; now rewrite put_at).
    assert (Sy' : forall ix, slice_of (length h1) (put ix i a) Y y) by (intros; now rewrite put_at).
    unfold outcome in *. rewrite missing_more in O. destruct O as [[Em M]|[Em [Eh M]]]; [left|right].
    - split; [exact Em|]. destruct M as (_ & _ & M). split; [exact Wy|]. split; [exact Ey|]. intros ix Hix.
      assert (M' : get Y (gindex len (put ix i) gr') = get X (gindex len (put ix i) gl')).
      { apply M. intros b Hb. rewrite in_app_iff, !in_more in Hb. destruct (label_eq_dec b a) as [->|Hne]; [now rewrite put_at|].
        rewrite put_other by exact Hne. apply Hix. apply in_app_iff. tauto. }
      rewrite (get_slice h1 h2 Y y _ (Sy' ix) Ey), (get_slice g1 g2 X x _ (S' ix) Ex), !gindex_put in M' by assumption. exact M'.
    - split; [exact Em|]. split; [exact Eh|]. destruct M as (_ & _ & M). split; [exact Wy|]. split; [exact Ey|]. intros ix Hix.
      rewrite missing_more in M. destruct (M (put ix i)) as (vs & v & M1 & M2 & M3).
      { intros b Hb. rewrite in_more in Hb. destruct (label_eq_dec b a) as [->|Hne]; [now rewrite put_at|].
        rewrite put_other by exact Hne. apply Hix. tauto. }
      exists vs, v. rewrite (elements_slice X x _ (S' ix) Ex), elements_put in M1. split; [exact M1|]. split; [exact M2|].
      rewrite (get_slice h1 h2 Y y _ (Sy' ix) Ey), gindex_put in M3 by assumption. exact M3.
  Qed.

  Lemma outcome_slices X Y : wf Y -> shp Y = gshape len gr' -> len a <> 0 ->
    (forall i, i < len a -> exists x y, slice_of (length g1) i X x /\ shp x = gshape len gl /\ slice_of (length h1) i Y y /\ shp y = gshape len gr /\ outcome h red gl gr len x y) ->
    outcome h red gl' gr' len X Y.
  Proof.
    intros WY EY Hn H. unfold outcome. rewrite missing_more.
    destruct (missing gl gr) as [|b0 q0] eqn:Em; [left|right].
    - split; [reflexivity|]. split; [exact WY|]. split; [exact EY|]. intros ix Hix.
      destruct (H (ix a)) as (x & y & Sx & Ex & Sy & Ey & O).
      { apply Hix. rewrite in_app_iff, in_more. auto. }
      rewrite (get_slice h1 h2 Y y _ Sy Ey), (get_slice g1 g2 X x _ Sx Ex).
      destruct O as [[_ (_ & _ & M)]|[N _]]; [|congruence]. apply M. intros b Hb. apply Hix. rewrite in_app_iff, !in_more. apply in_app_iff in Hb. tauto.
    - assert (Eh : h = true).
      { destruct (H 0) as (x & y & _ & _ & _ & _ & [[N _]|[_ [E _]]]); [lia|congruence|exact E]. }
      split; [discriminate|]. split; [exact Eh|]. split; [exact WY|]. split; [exact EY|]. intros ix Hix. rewrite missing_more, Em.
      destruct (H (ix a)) as (x & y & Sx & Ex & Sy & Ey & O).
      { apply Hix. rewrite in_more. auto. }
      destruct O as [[N _]|[_ [_ (_ & _ & M)]]]; [congruence|]. destruct (M ix) as (vs & v & M1 & M2 & M3).
      { intros b Hb. apply Hix. rewrite in_more. auto. }
      exists vs, v. rewrite Em in M1. split; [|split; [exact M2|]].
      + pose proof (elements_slice X x ix Sx Ex) as E. rewrite Em in E. now rewrite E.
      + rewrite (get_slice h1 h2 Y y _ Sy Ey). exact M3.
  Qed.
End Outcomes.

(** ** Calls *)
Section Named.
  Context (b : pystr) (Hb : b <> ell_name).
  Notation it := (Atom (AName b)).
  Lemma more_keys_list X Y : keys (X ++ it :: Y) = keys X ++ b :: keys Y.
  Proof. unfold keys, atoms. rewrite !flat_map_app. reflexivity. Qed.
  Lemma keys_split X Y : keys (X ++ Y) = keys X ++ keys Y.
  Proof. unfold keys, atoms. now rewrite !flat_map_app. Qed.
  Lemma more_keys X Y s : In s (keys (X ++ it :: Y)) <-> s = b \/ In s (keys (X ++ Y)).
  Proof. rewrite more_keys_list, keys_split, !in_app_iff. cbn. intuition congruence. Qed.
  Lemma more_nbig X Y : nbig (atoms (X ++ it :: Y)) = nbig (atoms (X ++ Y)).
  Proof. unfold atoms. rewrite !flat_map_app. cbn [flat_map item_atoms app]. rewrite !nbig_app. reflexivity. Qed.
  Lemma more_dots X Y : has_dots (X ++ it :: Y) = has_dots (X ++ Y).
  Proof. unfold has_dots, atoms. rewrite !flat_map_app. cbn [flat_map item_atoms app]. rewrite !existsb_app. reflexivity. Qed.
  Lemma more_numbers X Y : has_numbers (X ++ it :: Y) = has_numbers (X ++ Y).
  Proof. unfold has_numbers, atoms. rewrite !flat_map_app. cbn [flat_map item_atoms app]. rewrite !existsb_app. reflexivity. Qed.
  Lemma more_grouped X Y : grouped_dots (X ++ it :: Y) <-> grouped_dots (X ++ Y).
  Proof.
    unfold grouped_dots. split; intros (l & H1 & H2); exists l; split; auto; apply in_app_iff; apply in_app_iff in H1; cbn in *; [|tauto].
    destruct H1 as [H1|[H1|H1]]; [auto|discriminate|auto].
  Qed.
  Lemma more_groups d e k X Y : groups d e k (X ++ it :: Y) = groups d e k X ++ [LName b] :: groups d e (k + nbig (atoms X)) Y.
  Proof.
    rewrite groups_app. f_equal. cbn [groups item_groups item_atoms]. unfold atom_labels, stands_for_dots.
    destruct (str_eqb b ell_name) eqn:E; [apply str_eqb_eq in E; contradiction|]. rewrite andb_false_r. cbn [app]. f_equal. f_equal.
    change (nbig [AName b]) with 0. lia.
  Qed.
  Lemma more_rank X Y n e : rank_fits (X ++ it :: Y) (S n) e <-> rank_fits (X ++ Y) n e.
  Proof. unfold rank_fits. rewrite more_dots. destruct (has_dots (X ++ Y)); rewrite !app_length; cbn [length]; lia. Qed.
  Lemma more_odd X Y Z W : odd_pattern (X ++ it :: Y) (Z ++ it :: W) <-> odd_pattern (X ++ Y) (Z ++ W).
  Proof. unfold odd_pattern. rewrite !more_dots, more_keys. intuition congruence. Qed.
  Lemma more_fresh X Y : NoDup (keys (X ++ it :: Y)) -> ~ In b (keys (X ++ Y)).
  Proof. rewrite more_keys_list, keys_split. apply NoDup_remove_2. Qed.
  Lemma more_ident w X Y Z W names : ~ In b (keys (X ++ Y)) -> ~ In b (keys (Z ++ W)) ->
    (ident_ok w (X ++ it :: Y) (Z ++ it :: W) names <-> ident_ok w (X ++ Y) (Z ++ W) names).
  Proof.
    intros F1 F2.
    assert (I1 : forall P Q P' Q', ~ In b (keys (P ++ Q)) -> (incl (keys (P ++ it :: Q)) (keys (P' ++ it :: Q')) <-> incl (keys (P ++ Q)) (keys (P' ++ Q')))).
    { intros P Q P' Q' F. split; intros H s Hs.
      - assert (X1 : In s (keys (P' ++ it :: Q'))) by (apply H; apply more_keys; auto). apply more_keys in X1 as [->|X1]; [contradiction|exact X1].
      - apply more_keys. apply more_keys in Hs as [->|Hs]; auto. }
    assert (I2 : incl (keys (Z ++ it :: W)) (keys (X ++ it :: Y) ++ names) <-> incl (keys (Z ++ W)) (keys (X ++ Y) ++ names)).
    { split; intros H s Hs.
      - assert (X1 : In s (keys (X ++ it :: Y) ++ names)) by (apply H; apply more_keys; auto). apply in_app_iff. apply in_app_iff in X1 as [X1|X1]; [|auto].
        apply more_keys in X1 as [->|X1]; [contradiction|auto].
      - apply in_app_iff. rewrite more_keys. apply more_keys in Hs as [->|Hs]; [auto|]. apply H in Hs. apply in_app_iff in Hs. tauto. }
    destruct w; cbn [ident_ok]; rewrite ?more_numbers, ?(I1 X Y Z W F1), ?(I1 Z W X Y F2), ?I2; tauto.
  Qed.
End Named.

Section BatchCalls.
  Context {A : Type} (r : runtime A) (Hok : runtime_ok r).
  Notation U := (rt_unicode r).
  Let HU : unicode_ok U := ro_unicode r Hok.
  Context (b : pystr) (p p' : pystr) (L1 L2 R1 R2 : expr) (sizes : list (pystr * Z)).
  Notation it := (Atom (AName b)).
  Notation L := (L1 ++ L2).
  Notation R := (R1 ++ R2).
  Notation L' := (L1 ++ it :: L2).
  Notation R' := (R1 ++ it :: R2).
  Hypothesis Hb : b <> ell_name.
  Hypothesis Hp : reads U p L R.
  Hypothesis Hp' : reads U p' L' R'.
  Hypothesis Hsz : ~ In b (map fst sizes).
  Hypothesis Hn : NoDup (map fst sizes).
  Variable e : nat.
  Notation g1 := (groups (has_dots L) e 0 L1).
  Notation g2 := (groups (has_dots L) e (nbig (atoms L1)) L2).
  Notation h1 := (groups (has_dots L) e (nbig (atoms L)) R1).
  Notation h2 := (groups (has_dots L) e (nbig (atoms L) + nbig (atoms R1)) R2).

  Lemma left_more : left_groups e L' = g1 ++ [LName b] :: g2.
  Proof. unfold left_groups. now rewrite more_dots, more_groups by exact Hb. Qed.
  Lemma left_less : left_groups e L = g1 ++ g2.
  Proof. unfold left_groups. apply groups_app. Qed.
  Lemma right_more : right_groups e L' R' = h1 ++ [LName b] :: h2.
  Proof. unfold right_groups. now rewrite more_dots, more_nbig, more_groups by exact Hb. Qed.
  Lemma right_less : right_groups e L R = h1 ++ h2.
  Proof. unfold right_groups. apply groups_app. Qed.
  Lemma fresh_L : ~ In b (keys L).
  Proof. exact (more_fresh b L1 L2 (keys_NoDup_L U p' _ _ Hp')). Qed.
  Lemma fresh_R : ~ In b (keys R).
  Proof. exact (more_fresh b R1 R2 (keys_NoDup_R U p' _ _ Hp')). Qed.
  Lemma fresh_labels : (has_dots R = true -> has_dots L = true) -> ~ In (LName b) (concat (g1 ++ g2)) /\ ~ In (LName b) (concat (h1 ++ h2)).
  Proof.
    intros Hd. rewrite <- left_less, <- right_less. unfold left_groups, right_groups. rewrite !concat_groups. split; intros H.
    - apply FrontFacts.in_atoms_labels in H; [|apply (side_L L R Hd)]. exact (fresh_L (proj1 H)).
    - apply FrontFacts.in_atoms_labels in H; [|apply (side_R L R Hd)]. exact (fresh_R (proj1 H)).
  Qed.

  Lemma in_groups_more g q1 q2 (v : list label) : In g (q1 ++ v :: q2) <-> g = v \/ In g (q1 ++ q2).
  Proof. rewrite !in_app_iff. cbn. intuition congruence. Qed.
  Lemma numbers_more c q1 q2 q3 q4 : (forall s, c <> LName s) ->
    (In c (concat (q1 ++ [LName b] :: q2) ++ concat (q3 ++ [LName b] :: q4)) <-> In c (concat (q1 ++ q2) ++ concat (q3 ++ q4))).
  Proof. intros H. rewrite !in_app_iff, !in_more. specialize (H b). tauto. Qed.

  Lemma fits_less len s : fits len (g1 ++ [LName b] :: g2) (h1 ++ [LName b] :: h2) (firstn (length g1) s ++ len (LName b) :: skipn (length g1) s) sizes ->
    length g1 <= length s -> fits len (g1 ++ g2) (h1 ++ h2) s sizes.
  Proof.
    intros (F1 & F2 & F3) Hl. split; [|split; [|exact F3]].
    - rewrite gshape_more in F1. apply (f_equal (take_out (length g1))) in F1.
      assert (Hg : length g1 <= length (gshape len (g1 ++ g2))) by (unfold gshape; rewrite map_length, app_length; lia).
      rewrite (proj2 (put_back _ _ _ Hl)), (proj2 (put_back _ _ _ Hg)) in F1. exact F1.
    - intros k n H. apply F2. apply numbers_more; [discriminate|exact H].
  Qed.
  Lemma fits_more len s : fits len (g1 ++ g2) (h1 ++ h2) s sizes ->
    fits len (g1 ++ [LName b] :: g2) (h1 ++ [LName b] :: h2) (firstn (length g1) s ++ len (LName b) :: skipn (length g1) s) sizes.
  Proof.
    intros (F1 & F2 & F3). split; [|split; [|exact F3]].
    - now rewrite gshape_more, F1.
    - intros k n H. apply F2. refine (proj1 (numbers_more _ _ _ _ _ _) H). discriminate.
  Qed.

  Lemma ok_less w len s : call_ok U w p' sizes (firstn (length g1) s ++ len (LName b) :: skipn (length g1) s) L' R' e len -> length g1 <= length s ->
    call_ok U w p sizes s L R e len.
  Proof.
    intros [C1 C2 C3 C4 C5 C6 C7 C8 C9 C10] Hl. rewrite left_more, ?right_more in *. constructor; rewrite ?left_less, ?right_less.
    - exact Hp.
    - apply more_ident in C2; [exact C2|exact fresh_L|exact fresh_R].
    - rewrite !more_dots in C3. exact C3.
    - rewrite more_dots in C4. intros H X. apply (C4 H). now apply more_grouped.
    - rewrite ins_length in C5 by exact Hl. now apply more_rank in C5.
    - intros s0 H0. destruct (C6 s0 H0) as [H1 H2]. split; [exact H1|]. apply in_app_iff. apply in_app_iff in H2. rewrite !more_keys in H2.
      assert (s0 <> b) by (intros ->; contradiction). tauto.
    - intros g Hg. apply C7. apply in_groups_more. auto.
    - apply fits_less; assumption.
    - intros g Hg. apply C9. apply in_groups_more. auto.
    - intros H. apply C10. now apply more_odd.
  Qed.
  Lemma ok_more w len s : call_ok U w p sizes s L R e len ->
    call_ok U w p' sizes (firstn (length g1) s ++ len (LName b) :: skipn (length g1) s) L' R' e len.
  Proof.
    intros [C1 C2 C3 C4 C5 C6 C7 C8 C9 C10]. rewrite left_less, ?right_less in *.
    assert (Hl : length g1 <= length s). { destruct C8 as [<- _]. unfold gshape. rewrite map_length, app_length. lia. }
    assert (Hu : unknown (map fst sizes) (LName b) = true).
    { cbn. destruct (str_mem b (map fst sizes)) eqn:E; [apply str_mem_In in E; contradiction|reflexivity]. }
    constructor; rewrite ?left_more, ?right_more.
    - exact Hp'.
    - apply more_ident; [exact fresh_L|exact fresh_R|exact C2].
    - rewrite !more_dots. exact C3.
    - rewrite more_dots. intros H X. apply (C4 H). exact (proj1 (more_grouped b L1 L2) X).
    - rewrite ins_length by exact Hl. now apply more_rank.
    - intros s0 H0. destruct (C6 s0 H0) as [H1 H2]. split; [exact H1|]. apply in_app_iff. apply in_app_iff in H2. rewrite !more_keys. tauto.
    - intros g Hg. apply in_groups_more in Hg as [->|Hg]; [|auto]. cbn [filter]. rewrite Hu. cbn. lia.
    - apply fits_more; assumption.
    - intros g Hg. apply in_groups_more in Hg as [->|Hg]; [|auto]. intros _. cbn [filter]. rewrite Hu. cbn. discriminate.
    - intros H. apply C10. exact (proj1 (more_odd b Hb L1 L2 R1 R2) H).
  Qed.

  Context (rd : reduction (tensor A)) (w : role) (red : list A -> result A) (h : bool).
  Hypothesis K : op_kind r p sizes rd w red h.
  Hypothesis K' : op_kind r p' sizes rd w red h.

  Lemma position_left : length (left_groups e L1) = length g1.
  Proof. now rewrite (left_pos r p L1 L2 R e Hp). Qed.

  (** every slice of the result is the result of a slice *)
  Lemma batch_down X Y x i : rank_fits L (length (shp x)) e -> slice_of (length g1) i X x ->
    reduce r (One X) p' rd sizes = Ok Y ->
    count_at (length h1) Y = count_at (length g1) X /\ exists y, slice_of (length h1) i Y y /\ reduce r (One x) p rd sizes = Ok y.
  Proof.
    intros Hk S H. unfold reduce in *. assert (WX : wf X) by apply S. assert (Wx : wf x) by apply S.
    destruct (slice_shape _ _ _ _ S) as [ES _]. assert (Hl : length g1 <= length (shp x)) by apply S.
    apply (op_iff r Hok rd w red h X p' sizes Y K' Hn WX) in H as [Hs [L0 [R0 [e0 [len [Hc O]]]]]].
    destruct (reads_fun U HU p' _ _ _ _ (co_reads _ _ _ _ _ _ _ _ _ Hc) Hp') as [-> ->].
    assert (e0 = e).
    { eapply rank_fits_fun; [exact (co_rank _ _ _ _ _ _ _ _ _ Hc)|]. rewrite ES, ins_length by exact Hl. now apply more_rank. }
    subst e0.
    assert (Ea : count_at (length g1) X = len (LName b)).
    { pose proof (co_fits _ _ _ _ _ _ _ _ _ Hc) as [F _]. rewrite left_more, gshape_more in F. unfold count_at. rewrite <- F.
      apply put_back. unfold gshape. rewrite map_length, app_length. lia. }
    rewrite Ea in ES.
    assert (Hc0 : call_ok U w p sizes (shp x) L R e len) by (apply ok_less; [rewrite <- ES; exact Hc|exact Hl]).
    destruct (fresh_labels (co_dots _ _ _ _ _ _ _ _ _ Hc0)) as [F1 F2].
    rewrite left_more, right_more in O. split.
    { assert (EY : shp Y = gshape len (h1 ++ [LName b] :: h2)) by (destruct O as [[_ (_ & E & _)]|[_ [_ (_ & E & _)]]]; auto).
      rewrite Ea. unfold count_at. rewrite EY, gshape_more. apply put_back. unfold gshape. rewrite map_length, app_length. lia. }
    destruct (outcome_slice g1 g2 h1 h2 (LName b) len h red F1 F2 X x Y i S) as (y & Sy & _ & Oy); [| |exact O|].
    - pose proof (co_fits _ _ _ _ _ _ _ _ _ Hc) as [F _]. now rewrite left_more in F.
    - pose proof (co_fits _ _ _ _ _ _ _ _ _ Hc0) as [F _]. now rewrite left_less in F.
    - exists y. split; [exact Sy|]. apply (op_iff_at r Hok rd w red h x p sizes L R e len y K Hn Wx Hs Hc0). now rewrite left_less, right_less.
  Qed.

  (** if it works for every slice, it works *)
  Lemma batch_up X n s : wf X -> n <> 0 -> length g1 <= length s -> shp X = firstn (length g1) s ++ n :: skipn (length g1) s -> rank_fits L (length s) e ->
    (forall i, i < n -> exists x y, slice_of (length g1) i X x /\ reduce r (One x) p rd sizes = Ok y) ->
    exists Y, reduce r (One X) p' rd sizes = Ok Y.
  Proof.
    intros WX Hn0 Hl ES Hk H. unfold reduce in *.
    assert (Sh : forall i x, slice_of (length g1) i X x -> shp x = s).
    { intros i x Sx. destruct (slice_shape _ _ _ _ Sx) as [E _]. assert (Hx : length g1 <= length (shp x)) by apply Sx.
      rewrite ES in E. apply (f_equal (take_out (length g1))) in E. rewrite (proj2 (put_back _ _ _ Hl)), (proj2 (put_back _ _ _ Hx)) in E. auto. }
    destruct (H 0) as (x0 & y0 & S0 & H0); [lia|].
    apply (op_iff r Hok rd w red h x0 p sizes y0 K Hn (proj1 (proj2 S0))) in H0 as [Hs [L0 [R0 [e0 [len0 [Hc O]]]]]].
    rewrite (Sh _ _ S0) in Hc.
    destruct (reads_fun U HU p _ _ _ _ (co_reads _ _ _ _ _ _ _ _ _ Hc) Hp) as [-> ->].
    assert (e0 = e) by (eapply rank_fits_fun; [exact (co_rank _ _ _ _ _ _ _ _ _ Hc)|exact Hk]). subst e0.
    destruct (fresh_labels (co_dots _ _ _ _ _ _ _ _ _ Hc)) as [F1 F2].
    set (len := put (LName b) len0 n).
    assert (Hlen : len (LName b) = n) by apply put_at.
    assert (Hc1 : call_ok U w p sizes s L R e len).
    { apply (fits_call_ok U w p sizes s L R e len0 len Hc). destruct (co_fits _ _ _ _ _ _ _ _ _ Hc) as (Q1 & Q2 & Q3).
      split; [|split].
      - rewrite <- Q1. rewrite left_less. apply gshape_same. intros c Hc'. apply put_other. intros ->. contradiction.
      - intros k m Hin. unfold len. rewrite put_other by discriminate. exact (Q2 k m Hin).
      - intros t z Hin. unfold len. rewrite put_other; [exact (Q3 t z Hin)|]. intros [= ->]. apply Hsz. apply in_map_iff. exists (b, z). auto. }
    assert (EF : gshape len (g1 ++ g2) = s) by (pose proof (co_fits _ _ _ _ _ _ _ _ _ Hc1) as [F _]; now rewrite left_less in F).
    assert (Each : forall i, i < n -> exists y, (exists x, slice_of (length g1) i X x /\ outcome h red (g1 ++ g2) (h1 ++ h2) len x y) /\ wf y /\ shp y = gshape len (h1 ++ h2)).
    { intros i Hi. destruct (H i Hi) as (x & y & Sx & Hy). exists y.
      assert (O' : outcome h red (g1 ++ g2) (h1 ++ h2) len x y).
      { rewrite <- left_less, <- right_less. apply (op_iff_at r Hok rd w red h x p sizes L R e len y K Hn (proj1 (proj2 Sx)) Hs); [|exact Hy].
        rewrite (Sh _ _ Sx). exact Hc1. }
      split; [eauto|]. destruct O' as [[_ (W & E & _)]|[_ [_ (W & E & _)]]]; auto. }
    destruct (unslice (length h1) n (gshape len (h1 ++ h2)) ltac:(unfold gshape; rewrite map_length, app_length; lia) Each) as (Y & WY & EY & HY).
    exists Y. apply (op_iff_at r Hok rd w red h X p' sizes L' R' e len Y K' Hn WX Hs).
    { rewrite ES. rewrite <- Hlen. apply ok_more. exact Hc1. }
    rewrite left_more, right_more. apply outcome_slices; auto.
    - rewrite gshape_more, Hlen. exact EY.
    - now rewrite Hlen.
    - rewrite Hlen. intros i Hi. destruct (HY i Hi) as (y & (x & Sx & Ox) & Ey & Sy). exists x, y. split; [exact Sx|]. split; [rewrite (Sh _ _ Sx); auto|]. auto.
  Qed.
End BatchCalls.

(** ** The three operations *)
Section Operations.
  Context {A : Type} (r : runtime A) (Hok : runtime_ok r).
  Notation U := (rt_unicode r).
  Let HU : unicode_ok U := ro_unicode r Hok.
  Context (b : pystr) (p p' : pystr) (L1 L2 R1 R2 : expr) (sizes : list (pystr * Z)).
  Notation it := (Atom (AName b)).
  Hypothesis Hb : b <> ell_name.
  Hypothesis Hp : reads U p (L1 ++ L2) (R1 ++ R2).
  Hypothesis Hp' : reads U p' (L1 ++ it :: L2) (R1 ++ it :: R2).
  Hypothesis Hsz : ~ In b (map fst sizes).
  Hypothesis Hn : NoDup (map fst sizes).

  Lemma operation_kind f : operation r p sizes f -> exists rd w red h,
    op_kind r p sizes rd w red h /\ op_kind r p' sizes rd w red h /\ forall x q, f x q = reduce r x q rd sizes.
  Proof.
    intros [|Hs|s Hbi H1 H2].
    - exists (RStr s_rearrange), Rearranging, (fun _ => Err AssertionError), true. split; [constructor|]. split; [constructor|reflexivity].
    - exists (RStr s_repeat), Repeating, (fun _ => Err AssertionError), true. split; [constructor; exact Hs|]. split; [constructor|reflexivity].
      intros Ex L0 R0 s H0 Hin. destruct (reads_fun U HU p' _ _ _ _ H0 Hp') as [-> ->].
      apply (more_keys b L1 L2 s). right. eapply Hs; eauto.
    - assert (Hs : str_mem s reductions = true).
      { unfold builtin in Hbi. cbn in Hbi. repeat destruct Hbi as [<-|Hbi]; try reflexivity. destruct Hbi. }
      exists (RStr s), Reducing, (rt_red r s), (has_reduction (rt_framework r) s).
      split; [constructor; auto|]. split; [constructor; auto|reflexivity].
  Qed.

  Lemma op_slices f e X Y x i : operation r p sizes f -> rank_fits (L1 ++ L2) (length (shp x)) e ->
    slice_of (length (left_groups e L1)) i X x -> f (One X) p' = Ok Y ->
    count_at (length (right_groups e (L1 ++ L2) R1)) Y = count_at (length (left_groups e L1)) X /\
    exists y, slice_of (length (right_groups e (L1 ++ L2) R1)) i Y y /\ f (One x) p = Ok y.
  Proof.
    intros Ho Hk S H. destruct (operation_kind f Ho) as (rd & w & red & h & K & K' & E). rewrite E in H.
    rewrite (position_left r p L1 L2 R1 R2 Hp) in S.
    destruct (batch_down r Hok b p p' L1 L2 R1 R2 sizes Hb Hp Hp' Hsz Hn e rd w red h K K' X Y x i Hk S H) as (Ec & y & Sy & Hy).
    rewrite (position_left r p L1 L2 R1 R2 Hp). split; [exact Ec|]. exists y. rewrite E. auto.
  Qed.
  Lemma op_independent f e X X' Y Y' x i i' : operation r p sizes f -> rank_fits (L1 ++ L2) (length (shp x)) e ->
    slice_of (length (left_groups e L1)) i X x -> slice_of (length (left_groups e L1)) i' X' x -> f (One X) p' = Ok Y -> f (One X') p' = Ok Y' ->
    exists y, slice_of (length (right_groups e (L1 ++ L2) R1)) i Y y /\ slice_of (length (right_groups e (L1 ++ L2) R1)) i' Y' y.
  Proof.
    intros Ho Hk S S' H H'. destruct (op_slices f e X Y x i Ho Hk S H) as (_ & y & Sy & Hy). destruct (op_slices f e X' Y' x i' Ho Hk S' H') as (_ & y' & Sy' & Hy').
    exists y. split; [exact Sy|]. congruence.
  Qed.
  Lemma op_returns f e X s n : operation r p sizes f -> wf X -> n <> 0 -> length (left_groups e L1) <= length s ->
    shp X = firstn (length (left_groups e L1)) s ++ n :: skipn (length (left_groups e L1)) s -> rank_fits (L1 ++ L2) (length s) e ->
    (forall i, i < n -> exists x y, slice_of (length (left_groups e L1)) i X x /\ f (One x) p = Ok y) ->
    exists Y, f (One X) p' = Ok Y.
  Proof.
    intros Ho WX H0 Hl ES Hk H. destruct (operation_kind f Ho) as (rd & w & red & h & K & K' & E).
    rewrite (position_left r p L1 L2 R1 R2 Hp) in *.
    destruct (batch_up r Hok b p p' L1 L2 R1 R2 sizes Hb Hp Hp' Hsz Hn e rd w red h K K' X n s WX H0 Hl ES Hk) as (Y & HY).
    - intros i Hi. destruct (H i Hi) as (x & y & Sx & Hx). exists x, y. rewrite <- E. auto.
    - exists Y. now rewrite E.
  Qed.
End Operations.

Section Lists.
  Context {A : Type} (r : runtime A) (Hok : runtime_ok r).
  Notation U := (rt_unicode r).
  Lemma slice_first (ts : list (tensor A)) s t : wf t -> shp t = length ts :: s -> (forall t', In t' ts -> wf t' /\ shp t' = s) ->
    (forall k i t', nth_error ts k = Some t' -> get t (k :: i) = get t' i) ->
    forall k t', nth_error ts k = Some t' -> slice_of 0 k t t'.
  Proof.
    intros W E H G k t' Hk. pose proof (H _ (nth_error_In _ _ Hk)) as [W' E']. split; [exact W|]. split; [exact W'|]. split; [lia|]. split.
    - exists (length ts). rewrite E'. split; [|exact E]. apply nth_error_Some. congruence.
    - intros idx _. cbn. symmetry. apply G. exact Hk.
  Qed.
  Lemma forall2_nth {X Y} (P : X -> Y -> Prop) l m : length l = length m -> (forall i a b, nth_error l i = Some a -> nth_error m i = Some b -> P a b) -> Forall2 P l m.
  Proof.
    revert m; induction l as [|a l IH]; intros [|c m] E H; cbn in E; try lia; constructor.
    - apply (H 0); reflexivity.
    - apply IH; [lia|]. intros i a' b' H1 H2. exact (H (S i) _ _ H1 H2).
  Qed.
  Lemma forall2_at {X Y} (P : X -> Y -> Prop) l m i a : Forall2 P l m -> nth_error l i = Some a -> exists b, nth_error m i = Some b /\ P a b.
  Proof.
    intros H; revert i; induction H; intros [|i] E; cbn in *; try discriminate.
    - injection E as <-. eauto.
    - apply IHForall2. exact E.
  Qed.
  Lemma forall2_len {X Y} (P : X -> Y -> Prop) l m : Forall2 P l m -> length l = length m.
  Proof. induction 1; cbn; congruence. Qed.

  Context (b : pystr) (p p' : pystr) (L R1 R2 : expr) (sizes : list (pystr * Z)).
  Notation it := (Atom (AName b)).
  Hypothesis Hb : b <> ell_name.
  Hypothesis Hp : reads U p L (R1 ++ R2).
  Hypothesis Hp' : reads U p' (it :: L) (R1 ++ it :: R2).
  Hypothesis Hsz : ~ In b (map fst sizes).
  Hypothesis Hn : NoDup (map fst sizes).

  Lemma operation_many f ts s : operation r p sizes f -> ts <> [] -> (forall t, In t ts -> wf t /\ shp t = s) ->
    exists t, wf t /\ shp t = length ts :: s /\ (forall k i t', nth_error ts k = Some t' -> get t (k :: i) = get t' i) /\ f (Many ts) p' = f (One t) p'.
  Proof.
    intros Ho Hne H. destruct (list_is_stack r ts s p' sizes Hne H) as (t & W & E & G & Q1 & Q2 & Q3). exists t. split; [exact W|]. split; [exact E|]. split; [exact G|].
    destruct Ho; [exact Q1|exact Q2|apply Q3].
  Qed.
  Lemma op_list f e s (ts : list (tensor A)) Y : operation r p sizes f -> rank_fits L (length s) e ->
    ts <> [] -> (forall t, In t ts -> wf t /\ shp t = s) ->
    let k := length (right_groups e L R1) in
    (f (Many ts) p' = Ok Y <->
     exists ys, Forall2 (fun t y => f (One t) p = Ok y) ts ys /\ wf Y /\ count_at k Y = length ts /\
       forall i y, nth_error ys i = Some y -> slice_of k i Y y).
  Proof.
    intros Ho Hk Hne H k. destruct (operation_many f ts s Ho Hne H) as (T & W & E & G & EM). rewrite EM.
    pose proof (slice_first ts s T W E H G) as Sl.
    assert (Down : forall Z, f (One T) p' = Ok Z -> exists ys, Forall2 (fun t y => f (One t) p = Ok y) ts ys /\ wf Z /\ count_at k Z = length ts /\
       forall i y, nth_error ys i = Some y -> slice_of k i Z y).
    { intros Z HZ.
      assert (Each : forall i t, nth_error ts i = Some t -> count_at k Z = length ts /\ exists y, slice_of k i Z y /\ f (One t) p = Ok y).
      { intros i t Et. pose proof (H _ (nth_error_In _ _ Et)) as [_ Es].
        destruct (op_slices r Hok b p p' [] L R1 R2 sizes Hb Hp Hp' Hsz Hn f e T Z t i Ho) as (Ec & y & Sy & Hy); [now rewrite Es|apply Sl; exact Et|exact HZ|].
        split; [|eauto]. etransitivity; [exact Ec|]. unfold count_at. cbn [left_groups groups length nth]. now rewrite E. }
      destruct (choose_list (P := fun i y => exists t, nth_error ts i = Some t /\ slice_of k i Z y /\ f (One t) p = Ok y) (length ts)) as (ys & El & Hy).
      { intros i Hi. destruct (nth_error ts i) as [t|] eqn:Et; [|apply nth_error_None in Et; lia].
        destruct (Each i t Et) as (_ & y & Sy & Hy). exists y, t. auto. }
      assert (Hpos : 0 < length ts) by (destruct ts; [congruence|cbn; lia]).
      exists ys. split; [|split; [|split]].
      - apply forall2_nth; [auto|]. intros i t y Ht Hyi. destruct (Hy i) as (y' & E1 & t' & E2 & _ & F); [rewrite <- El; apply nth_error_Some; congruence|]. congruence.
      - destruct (Hy 0 Hpos) as (y & E1 & t' & E2 & Sy & _). apply Sy.
      - destruct (Hy 0 Hpos) as (y & E1 & t' & E2 & Sy & _). apply (Each 0 t' E2).
      - intros i y' Hyi. destruct (Hy i) as (y2 & E3 & t2 & E4 & S2 & _); [rewrite <- El; apply nth_error_Some; congruence|]. congruence. }
    split; [apply Down|]. intros (ys & F & WY & Ec & HY).
    assert (Hpos : length ts <> 0) by (destruct ts; [congruence|cbn; lia]).
    destruct (op_returns r Hok b p p' [] L R1 R2 sizes Hb Hp Hp' Hsz Hn f e T s (length ts) Ho W Hpos) as (Z & HZ); [cbn; lia|exact E|exact Hk| |].
    { intros i Hi. destruct (nth_error ts i) as [t|] eqn:Et; [|apply nth_error_None in Et; lia].
      destruct (forall2_at _ _ _ _ _ F Et) as (y & _ & Hy). exists t, y. split; [apply Sl; exact Et|exact Hy]. }
    rewrite HZ. f_equal. destruct (Down Z HZ) as (zs' & F' & WZ & Ec' & HZ').
    assert (zs' = ys).
    { clear - F F'. revert ys F; induction F'; intros ys F; inversion F; subst; f_equal; [congruence|auto]. }
    subst zs'. pose proof (forall2_len _ _ _ F) as El.
    destruct ys as [|y0 ys]; [destruct ts; cbn in *; congruence|].
    pose proof (HY 0 y0 eq_refl) as S0. pose proof (HZ' 0 y0 eq_refl) as S0'.
    pose proof (slice_shape _ _ _ _ S0) as [A1 _]. pose proof (slice_shape _ _ _ _ S0') as [A2 _].
    apply (slices_fun k (length ts) (shp y0)); [apply S0|now rewrite A2, Ec'|congruence|exact WZ|exact WY|].
    intros i Hi. rewrite El in Hi. destruct (nth_error (y0 :: ys) i) as [y|] eqn:Ey; [|apply nth_error_None in Ey; lia]. exists y. auto.
  Qed.
End Lists.
