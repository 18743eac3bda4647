(** * Facts about packing: reshapes around one axis, pieces, pack *)
From Verif Require Import Py Tensor Parsing Recipe Ops Backends ListFacts TensorFacts SpecGrammar SpecPattern Api Packing SpecPacking PackFacts.

Notation zs := (map Z.of_nat).

(** ** resolving a shape *)
Lemma to_nats_zs s : to_nats (zs s) = s.
Proof. unfold to_nats. rewrite map_map. rewrite <- (map_id s) at 2. apply map_ext. intros; apply Nat2Z.id. Qed.
Lemma zs_closed s : closed_shape (zs s).
Proof. intros d Hd. apply in_map_iff in Hd as [n [<- _]]. lia. Qed.
Lemma closed_app p q : closed_shape (p ++ q) <-> closed_shape p /\ closed_shape q.
Proof.
  unfold closed_shape. split; [intros H; split; intros; apply H; apply in_or_app; auto|].
  intros [H1 H2] d Hd. apply in_app_or in Hd as [Hd|Hd]; auto.
Qed.
Lemma all_nonneg_closed p : all_nonneg p = true <-> closed_shape p.
Proof. unfold all_nonneg, closed_shape. rewrite forallb_forall. split; intros H d Hd; specialize (H d Hd); apply Z.leb_le; auto. Qed.
Lemma zs_to_nats p : closed_shape p -> zs (to_nats p) = p.
Proof.
  unfold to_nats. rewrite map_map. intros H. rewrite <- (map_id p) at 2. apply map_ext_in.
  intros d Hd. apply Z2Nat.id. auto.
Qed.
Lemma prodn_nonzero_app s1 s2 : prodn (s1 ++ s2) <> 0 <-> prodn s1 <> 0 /\ prodn s2 <> 0.
Proof. rewrite prodn_app. nia. Qed.

Lemma resolve_closed lib size p : closed_shape p ->
  resolve_shape lib size p = if prodn (to_nats p) =? size then Ok (to_nats p) else Err BackendError.
Proof. intros H. unfold resolve_shape. apply all_nonneg_closed in H. rewrite H. reflexivity. Qed.

Lemma infer_closed lib p : closed_shape p -> filter (is_infer lib) p = [] /\ filter (fun d => negb (is_infer lib d)) p = p.
Proof.
  induction p as [|d p IH]; intros H; [auto|].
  assert (E : is_infer lib d = false).
  { unfold is_infer. pose proof (H d (or_introl eq_refl)). destruct lib; [apply Z.ltb_ge; auto|apply Z.eqb_neq; lia]. }
  destruct IH as [I1 I2]; [intros x Hx; apply H; right; auto|]. cbn. rewrite E. cbn. rewrite I1, I2. auto.
Qed.

Lemma resolve_half_open lib size p1 p2 : closed_shape p1 -> closed_shape p2 ->
  resolve_shape lib size (p1 ++ (-1)%Z :: p2) =
  let p := prodn (to_nats (p1 ++ p2)) in
  if p =? 0 then Err BackendError
  else if size mod p =? 0 then Ok (to_nats p1 ++ (size / p) :: to_nats p2) else Err BackendError.
Proof.
  intros H1 H2. unfold resolve_shape.
  assert (E : all_nonneg (p1 ++ (-1)%Z :: p2) = false).
  { unfold all_nonneg. rewrite forallb_app. cbn. apply andb_false_r. }
  assert (I : is_infer lib (-1)%Z = true) by (destruct lib; reflexivity).
  rewrite E. rewrite !filter_app. cbn [filter]. rewrite I. cbn [negb].
  destruct (infer_closed lib p1 H1) as [A1 B1]. destruct (infer_closed lib p2 H2) as [A2 B2].
  rewrite A1, A2, B1, B2. cbn [app length Nat.eqb andb].
  assert (C : all_nonneg (p1 ++ p2) = true) by (apply all_nonneg_closed, closed_app; auto).
  rewrite C. cbn zeta. destruct (prodn (to_nats (p1 ++ p2)) =? 0) eqn:E0; [reflexivity|].
  destruct (size mod prodn (to_nats (p1 ++ p2)) =? 0); [|reflexivity].
  rewrite map_app. cbn [map]. rewrite I.
  assert (M : forall q, closed_shape q ->
    map (fun d => if is_infer lib d then size / prodn (to_nats (p1 ++ p2)) else Z.to_nat d) q = to_nats q).
  { intros q Hq. apply map_ext_in. intros d Hd. replace (is_infer lib d) with false; auto. symmetry.
    unfold is_infer. specialize (Hq d Hd). destruct lib; [apply Z.ltb_ge; auto|apply Z.eqb_neq; lia]. }
  rewrite !M by auto. reflexivity.
Qed.

Lemma tame_infer lib p : tame lib p -> forall d, In d p -> is_infer lib d = (d =? -1)%Z.
Proof.
  intros [->|H] d Hd; [reflexivity|]. specialize (H d Hd). destruct lib; [|reflexivity]. cbn.
  destruct (Z.ltb_spec d 0); destruct (Z.eqb_spec d (-1)); auto; lia.
Qed.

Lemma filter_one_split {X} (f : X -> bool) l : length (filter f l) = 1 ->
  exists l1 x l2, l = l1 ++ x :: l2 /\ f x = true /\ filter f l1 = [] /\ filter f l2 = [].
Proof.
  induction l as [|y l IH]; cbn; [discriminate|]. destruct (f y) eqn:E; cbn; intros H.
  - exists [], y, l. repeat split; auto. destruct (filter f l); [auto|discriminate].
  - destruct (IH H) as [l1 [x [l2 [-> [H1 [H2 H3]]]]]]. exists (y :: l1), x, l2. cbn. rewrite E. auto.
Qed.

Lemma filter_nil_false {X} (f : X -> bool) l x : filter f l = [] -> In x l -> f x = false.
Proof. intros H Hi. destruct (f x) eqn:E; auto. assert (In x (filter f l)) by (apply filter_In; auto). rewrite H in H0. destruct H0. Qed.

Lemma resolve_inv lib size p s : tame lib p -> resolve_shape lib size p = Ok s ->
  closed_shape p \/ half_open p.
Proof.
  intros T. unfold resolve_shape. destruct (all_nonneg p) eqn:E; [left; apply all_nonneg_closed; auto|].
  destruct ((length (filter (is_infer lib) p) =? 1) && all_nonneg (filter (fun d => negb (is_infer lib d)) p)) eqn:C;
    [|discriminate].
  intros _. right. apply andb_true_iff in C as [C1 C2]. apply Nat.eqb_eq in C1.
  destruct (filter_one_split _ _ C1) as [p1 [d [p2 [-> [Hd [F1 F2]]]]]].
  assert (D : d = (-1)%Z).
  { rewrite (tame_infer _ _ T) in Hd by (apply in_or_app; right; left; auto). apply Z.eqb_eq; auto. }
  subst d. exists p1, p2. split; [auto|].
  apply all_nonneg_closed in C2.
  split; intros d Hi; apply C2; apply filter_In.
  - split; [apply in_or_app; left; exact Hi|]. apply negb_true_iff. exact (filter_nil_false _ _ _ F1 Hi).
  - split; [apply in_or_app; right; right; exact Hi|]. apply negb_true_iff. exact (filter_nil_false _ _ _ F2 Hi).
Qed.

Lemma to_nats_app p q : to_nats (p ++ q) = to_nats p ++ to_nats q.
Proof. apply map_app. Qed.

Lemma half_open_unique p1 p2 q1 q2 :
  closed_shape p1 -> closed_shape q1 -> p1 ++ (-1)%Z :: p2 = q1 ++ (-1)%Z :: q2 -> p1 = q1 /\ p2 = q2.
Proof.
  revert q1. induction p1 as [|d p1 IH]; intros [|e q1] H1 H2 E; cbn in E; inversion E; subst; auto.
  - exfalso. specialize (H2 (-1)%Z (or_introl eq_refl)). lia.
  - exfalso. specialize (H1 (-1)%Z (or_introl eq_refl)). lia.
  - destruct (IH q1) as [-> ->]; auto; intros x Hx; [apply H1|apply H2]; right; auto.
Qed.

Lemma half_open_not_closed p1 p2 : ~ closed_shape (p1 ++ (-1)%Z :: p2).
Proof. intros H. specialize (H (-1)%Z ltac:(apply in_or_app; right; left; auto)). lia. Qed.

Lemma fills_unique p len m m' : fills p len m -> fills p len m' -> m = m'.
Proof.
  intros [L [[C ->]|[p1 [p2 [k [E [C1 [C2 [Z0 ->]]]]]]]]] [L' [[C' ->]|[q1 [q2 [k' [E' [D1 [D2 [Z0' ->]]]]]]]]]; auto.
  - subst p. exfalso; eapply half_open_not_closed; eauto.
  - subst p. exfalso; eapply half_open_not_closed; eauto.
  - subst p. apply half_open_unique in E' as [<- <-]; auto. f_equal. f_equal.
    rewrite to_nats_app, prodn_app in Z0. rewrite !prodn_app, !prodn_cons in L, L'. nia.
Qed.

Lemma fills_Forall2 p len m : fills p len m -> reads_as p m.
Proof.
  unfold reads_as. intros [_ H].
  assert (Q : forall q, closed_shape q -> Forall2 (fun d n => d = Z.of_nat n \/ d = (-1)%Z) q (to_nats q)).
  { induction q as [|d q IH]; intros Hq; constructor.
    - left. symmetry. apply Z2Nat.id. apply Hq. left; auto.
    - apply IH. intros x Hx. apply Hq. right; auto. }
  destruct H as [[C ->]|[p1 [p2 [k [-> [C1 [C2 [_ ->]]]]]]]]; [auto|].
  apply Forall2_app; auto.
Qed.

Lemma resolve_mid lib b a p len s :
  tame lib p -> prodn (b ++ a) <> 0 ->
  (resolve_shape lib (prodn (b ++ [len] ++ a)) (zs b ++ p ++ zs a) = Ok s <->
   exists m, s = b ++ m ++ a /\ fills p len m).
Proof.
  intros T P. apply prodn_nonzero_app in P as [Pb Pa].
  assert (T' : tame lib (zs b ++ p ++ zs a)).
  { destruct T as [->|T]; [left; auto|right]. intros d Hd. apply in_app_or in Hd as [Hd|Hd].
    - apply zs_closed in Hd; lia.
    - apply in_app_or in Hd as [Hd|Hd]; [auto|apply zs_closed in Hd; lia]. }
  assert (CL : forall q, closed_shape (zs b ++ q ++ zs a) <-> closed_shape q).
  { intros q. rewrite !closed_app. pose proof (zs_closed b). pose proof (zs_closed a). tauto. }
  assert (PL : prodn (b ++ [len] ++ a) = prodn b * (len * prodn a)) by (rewrite prodn_app; cbn [app]; rewrite prodn_cons; auto).
  assert (closed_case : closed_shape p ->
    (resolve_shape lib (prodn (b ++ [len] ++ a)) (zs b ++ p ++ zs a) = Ok s <->
     s = b ++ to_nats p ++ a /\ prodn (to_nats p) = len)).
  { intros C. rewrite resolve_closed by (apply CL; auto). rewrite !to_nats_app, !to_nats_zs.
    rewrite PL, !prodn_app. destruct (Nat.eqb_spec (prodn b * (prodn (to_nats p) * prodn a)) (prodn b * (len * prodn a))) as [E|E].
    - apply Nat.mul_cancel_l in E; auto. apply Nat.mul_cancel_r in E; auto. split; [intros [= <-]; auto|]. intros [-> _]; auto.
    - split; [discriminate|]. intros [_ <-]. congruence. }
  assert (open_case : forall p1 p2, p = p1 ++ (-1)%Z :: p2 -> closed_shape p1 -> closed_shape p2 ->
    (resolve_shape lib (prodn (b ++ [len] ++ a)) (zs b ++ p ++ zs a) = Ok s <->
     exists k, s = b ++ (to_nats p1 ++ k :: to_nats p2) ++ a /\ prodn (to_nats (p1 ++ p2)) <> 0 /\
               prodn (to_nats p1 ++ k :: to_nats p2) = len)).
  { intros p1 p2 -> C1 C2.
    replace (zs b ++ (p1 ++ (-1)%Z :: p2) ++ zs a) with ((zs b ++ p1) ++ (-1)%Z :: (p2 ++ zs a))
      by (rewrite <- !app_assoc; reflexivity).
    rewrite resolve_half_open by (apply closed_app; split; auto using zs_closed). cbn zeta.
    rewrite !to_nats_app, !to_nats_zs.
    rewrite PL, !prodn_app. set (x1 := prodn (to_nats p1)). set (x2 := prodn (to_nats p2)).
    set (Q := prodn b * x1 * (x2 * prodn a)).
    assert (QK : forall k, prodn (to_nats p1 ++ k :: to_nats p2) = x1 * (k * x2)) by (intros; rewrite prodn_app, prodn_cons; auto).
    destruct (Nat.eqb_spec Q 0) as [E|E].
    - split; [discriminate|]. intros [k [_ [H _]]]. exfalso. unfold Q in E. nia.
    - assert (Hx : x1 * x2 <> 0) by (unfold Q in E; nia).
      destruct (Nat.eqb_spec ((prodn b * (len * prodn a)) mod Q) 0) as [M|M].
      + apply Nat.mod_divides in M as [k Hk]; [|auto].
        assert (K : x1 * (k * x2) = len).
        { assert (K1 : prodn b * (len * prodn a) = prodn b * (x1 * (k * x2) * prodn a)) by (rewrite Hk; unfold Q; ring).
          apply Nat.mul_cancel_l in K1; auto. apply Nat.mul_cancel_r in K1; auto. }
        assert (DV : prodn b * (len * prodn a) / Q = k) by (rewrite Hk, Nat.mul_comm; apply Nat.div_mul; auto).
        rewrite DV. split.
        * intros [= <-]. exists k. rewrite QK. split; [rewrite <- !app_assoc; reflexivity|auto].
        * intros [k' [-> [_ H]]]. rewrite QK in H. assert (k' = k) by nia. subst k'. rewrite <- !app_assoc. reflexivity.
      + split; [discriminate|]. intros [k [_ [_ H]]]. exfalso. apply M. rewrite QK in H.
        apply Nat.mod_divides; auto. exists k. unfold Q. rewrite <- H. lia. }
  split.
  - intros H. destruct (resolve_inv _ _ _ _ T' H) as [C|[q1 [q2 [Eq [D1 D2]]]]].
    + pose proof (proj1 (CL p) C) as C'. destruct (proj1 (closed_case C') H) as [-> L]. exists (to_nats p). split; [auto|]. split; [auto|left; auto].
    + assert (HO : In (-1)%Z p).
      { assert (Hi : In (-1)%Z (zs b ++ p ++ zs a)) by (rewrite Eq; apply in_or_app; right; left; auto).
        apply in_app_or in Hi as [Hi|Hi]; [apply zs_closed in Hi; lia|].
        apply in_app_or in Hi as [Hi|Hi]; [auto|apply zs_closed in Hi; lia]. }
      apply in_split in HO as [p1 [p2 Ep]].
      assert (CC : closed_shape p1 /\ closed_shape p2).
      { subst p. assert (F : zs b ++ (p1 ++ (-1)%Z :: p2) ++ zs a = (zs b ++ p1) ++ (-1)%Z :: (p2 ++ zs a)) by (rewrite <- !app_assoc; reflexivity).
        rewrite F in Eq.
        assert (LL : zs b ++ p1 = q1 /\ p2 ++ zs a = q2).
        { clear - Eq D1 D2. revert q1 Eq D1. generalize (zs b ++ p1) as l1, (p2 ++ zs a) as l2. intros l1 l2 q1.
          revert q1. induction l1 as [|d l1 IH]; intros [|e q1] E D1; cbn in E; inversion E; subst; auto.
          - exfalso. specialize (D1 (-1)%Z (or_introl eq_refl)). lia.
          - exfalso. specialize (D2 (-1)%Z ltac:(apply in_or_app; right; left; auto)). lia.
          - destruct (IH q1) as [-> ->]; auto. intros x Hx; apply D1; right; auto. }
        destruct LL as [<- <-]. apply closed_app in D1 as [_ D1]. apply closed_app in D2 as [D2 _]. auto. }
      destruct CC as [C1 C2]. destruct (proj1 (open_case p1 p2 Ep C1 C2) H) as [k [-> [Z0 L]]].
      eexists. split; [reflexivity|]. split; [auto|]. right. exists p1, p2, k. auto.
  - intros [m [-> [L [[C ->]|[p1 [p2 [k [E [C1 [C2 [Z0 ->]]]]]]]]]]].
    + apply closed_case; auto.
    + apply (open_case p1 p2); auto. exists k. auto.
Qed.

(** ** indexes around one axis *)
Lemma inb_split3 b m a idx : inb (b ++ m ++ a) idx = true ->
  exists ib im ia, idx = ib ++ im ++ ia /\ inb b ib = true /\ inb m im = true /\ inb a ia = true.
Proof.
  intros H. pose proof (inb_length _ _ H) as L. rewrite !app_length in L.
  exists (firstn (length b) idx), (firstn (length m) (skipn (length b) idx)), (skipn (length m) (skipn (length b) idx)).
  assert (E : idx = firstn (length b) idx ++ firstn (length m) (skipn (length b) idx) ++ skipn (length m) (skipn (length b) idx))
    by (rewrite !firstn_skipn; auto).
  split; [exact E|]. rewrite E in H. rewrite inb_app in H by (rewrite firstn_length; lia).
  rewrite inb_app in H by (rewrite firstn_length, skipn_length; lia).
  apply andb_true_iff in H as [H1 H2]. apply andb_true_iff in H2 as [H2 H3]. auto.
Qed.
Lemma inb_join3 b m a ib im ia :
  inb b ib = true -> inb m im = true -> inb a ia = true -> inb (b ++ m ++ a) (ib ++ im ++ ia) = true.
Proof.
  intros H1 H2 H3. rewrite inb_app by (apply inb_length; auto). rewrite inb_app by (apply inb_length; auto).
  rewrite H1, H2, H3. reflexivity.
Qed.
Lemma inb_one n i : inb [n] [i] = true <-> i < n.
Proof. cbn. rewrite andb_true_r. apply Nat.ltb_lt. Qed.
Lemma ravel_join3 b m a ib im ia :
  inb b ib = true -> inb m im = true ->
  ravel (b ++ m ++ a) (ib ++ im ++ ia) = ravel (b ++ [prodn m] ++ a) (ib ++ [ravel m im] ++ ia).
Proof.
  intros H1 H2. rewrite !ravel_app by (try (apply inb_length; auto); reflexivity).
  rewrite !prodn_app. change (prodn [prodn m]) with (prodn m * 1). change (ravel ([prodn m] ++ a) ([ravel m im] ++ ia)) with (ravel m im * prodn a + ravel a ia). ring.
Qed.

Lemma replace_nth_mid {X} (l1 : list X) y l2 x k : length l1 = k -> replace_nth k x (l1 ++ y :: l2) = l1 ++ x :: l2.
Proof. intros <-. unfold replace_nth. rewrite firstn_app, Nat.sub_diag, firstn_all, skipn_app, Nat.sub_diag, skipn_all. cbn. rewrite app_nil_r. auto. Qed.
Lemma nth_mid {X} (l1 : list X) y l2 d k : length l1 = k -> nth k (l1 ++ y :: l2) d = y.
Proof. intros <-. rewrite app_nth2, Nat.sub_diag by lia. auto. Qed.

Section Pieces.
  Context {A : Type}.
  Implicit Types (x t y : tensor A).

  Lemma slice_Ok x b n a lo hi :
    wf x -> shp x = b ++ [n] ++ a ->
    exists y, t_slice x (length b) lo hi = Ok y /\ wf y /\
      shp y = b ++ [slice_bound n hi - slice_bound n lo] ++ a /\
      forall ib i ia, inb b ib = true -> i < slice_bound n hi - slice_bound n lo -> inb a ia = true ->
        get y (ib ++ [i] ++ ia) = get x (ib ++ [slice_bound n lo + i] ++ ia).
  Proof.
    intros Hw Hs. unfold t_slice. rewrite Hs. cbn [app].
    replace (length b <? length (b ++ n :: a)) with true
      by (symmetry; apply Nat.ltb_lt; rewrite app_length; cbn; lia).
    rewrite nth_mid by auto. rewrite replace_nth_mid by auto.
    set (lo' := slice_bound n lo). set (hi' := slice_bound n hi).
    assert (Hb : hi' <= n) by (unfold hi', slice_bound; lia).
    assert (T : exists y, tabulate (b ++ (hi' - lo') :: a)
      (fun idx => getr x (replace_nth (length b) (lo' + nth (length b) idx 0) idx)) = Ok y).
    { apply tabulate_total. intros idx Hi. change (b ++ (hi' - lo') :: a) with (b ++ [hi' - lo'] ++ a) in Hi.
      apply inb_split3 in Hi as [ib [im [ia [-> [H1 [H2 H3]]]]]].
      destruct im as [|i [|? ?]]; try discriminate; [|cbn in H2; rewrite andb_false_r in H2; discriminate].
      apply inb_one in H2. cbn [app]. rewrite nth_mid, replace_nth_mid by (apply inb_length; auto).
      apply getr_wf; auto. rewrite Hs. apply (inb_join3 b [n] a ib [lo' + i] ia); auto. apply inb_one. lia. }
    destruct T as [y Hy]. exists y. rewrite Hy. split; [reflexivity|].
    apply tabulate_Ok in Hy as [W [S G]]. repeat split; auto.
    intros ib i ia H1 H2 H3.
    assert (I : inb (b ++ (hi' - lo') :: a) (ib ++ i :: ia) = true).
    { apply (inb_join3 b [hi' - lo'] a ib [i] ia); auto. apply inb_one; auto. }
    specialize (G _ I). rewrite nth_mid, replace_nth_mid in G by (apply inb_length; auto).
    unfold getr in G. destruct (get y (ib ++ i :: ia)) eqn:E1, (get x (ib ++ (lo' + i) :: ia)) eqn:E2; cbn in G; congruence.
  Qed.

  Lemma reshape_piece y b n a m :
    wf y -> shp y = b ++ [n] ++ a -> prodn m = n ->
    wf (mkT (b ++ m ++ a) (dat y)) /\
    forall ib im ia, inb b ib = true -> inb m im = true -> inb a ia = true ->
      get (mkT (b ++ m ++ a) (dat y)) (ib ++ im ++ ia) = get y (ib ++ [ravel m im] ++ ia).
  Proof.
    intros Hw Hs Hm. split.
    - unfold wf in *. cbn. rewrite Hw, Hs, !prodn_app. cbn [prodn fold_right]. lia.
    - intros ib im ia H1 H2 H3. unfold get. cbn [shp dat].
      rewrite (inb_join3 b m a) by auto. rewrite Hs. rewrite (inb_join3 b [n] a); auto.
      + rewrite ravel_join3 by auto. rewrite Hm. reflexivity.
      + apply inb_one. rewrite <- Hm. apply ravel_lt; auto.
  Qed.

  Lemma piece_unique b a x off m t t' : piece_of b a x off m t -> piece_of b a x off m t' -> t = t'.
  Proof.
    intros [W [S G]] [W' [S' G']]. apply tensor_ext; auto; [congruence|].
    intros idx Hi. rewrite S in Hi. apply inb_split3 in Hi as [ib [im [ia [-> [H1 [H2 H3]]]]]].
    rewrite G, G' by auto. reflexivity.
  Qed.

  (** slicing and then reshaping: what unpack does for each piece *)
  Lemma slice_reshape lib x b n a lo hi p t :
    wf x -> shp x = b ++ [n] ++ a -> tame lib p -> prodn (b ++ a) <> 0 ->
    ((let* piece := t_slice x (length b) lo hi in t_reshape lib piece (zs b ++ p ++ zs a)) = Ok t <->
     exists m, fills p (slice_bound n hi - slice_bound n lo) m /\ piece_of b a x (slice_bound n lo) m t).
  Proof.
    intros Hw Hs T P. destruct (slice_Ok x b n a lo hi Hw Hs) as [y [Ey [Wy [Sy Gy]]]].
    rewrite Ey. cbn [bind]. unfold t_reshape. rewrite Sy.
    set (len := slice_bound n hi - slice_bound n lo) in *.
    assert (K : forall m, fills p len m -> piece_of b a x (slice_bound n lo) m (mkT (b ++ m ++ a) (dat y))).
    { intros m F. destruct (reshape_piece y b len a m Wy Sy (proj1 F)) as [W G].
      repeat split; auto. intros ib im ia H1 H2 H3. rewrite G by auto. apply Gy; auto.
      rewrite <- (proj1 F). apply ravel_lt; auto. }
    split.
    - intros H. apply bind_Ok in H as [s [H1 H2]]. apply (resolve_mid lib b a p len s T P) in H1 as [m [-> F]].
      injection H2 as <-. exists m. auto.
    - intros [m [F Hp]]. pose proof (proj2 (resolve_mid lib b a p len (b ++ m ++ a) T P) (ex_intro _ m (conj eq_refl F))) as R.
      rewrite R. cbn [bind]. f_equal. eapply piece_unique; eauto.
  Qed.

  (** the reshape that pack does *)
  Lemma pack_reshape lib t b m a :
    shp t = b ++ m ++ a ->
    t_reshape lib t (zs b ++ [(-1)%Z] ++ zs a) =
    if prodn (b ++ a) =? 0 then Err BackendError else Ok (mkT (b ++ [prodn m] ++ a) (dat t)).
  Proof.
    intros Hs. unfold t_reshape. cbn [app]. rewrite resolve_half_open by apply zs_closed. cbn zeta.
    rewrite to_nats_app, !to_nats_zs. destruct (Nat.eqb_spec (prodn (b ++ a)) 0) as [E|E]; [reflexivity|].
    assert (Q : prodn (shp t) = prodn m * prodn (b ++ a)) by (rewrite Hs, !prodn_app; lia).
    rewrite Q, Nat.mod_mul by auto. cbn [Nat.eqb bind]. rewrite Nat.div_mul by auto. reflexivity.
  Qed.

  Lemma pack_reshape_get t b m a ib im ia :
    shp t = b ++ m ++ a -> inb b ib = true -> inb m im = true -> inb a ia = true ->
    get (mkT (b ++ [prodn m] ++ a) (dat t)) (ib ++ [ravel m im] ++ ia) = get t (ib ++ im ++ ia).
  Proof.
    intros Hs H1 H2 H3. unfold get. cbn [shp dat]. rewrite Hs.
    rewrite (inb_join3 b m a) by auto. rewrite (inb_join3 b [prodn m] a); auto.
    - rewrite (ravel_join3 b m a ib im ia) by auto. reflexivity.
    - apply inb_one. apply ravel_lt; auto.
  Qed.

  (** concatenation along the middle axis *)
  Lemma concat_get_spec (ts : list (tensor A)) ib ia i k t :
    nth_error ts k = Some t ->
    list_sum (map (fun t => nth (length ib) (shp t) 0) (firstn k ts)) <= i ->
    i < list_sum (map (fun t => nth (length ib) (shp t) 0) (firstn (S k) ts)) ->
    concat_get ts (length ib) (ib ++ i :: ia) =
    getr t (ib ++ (i - list_sum (map (fun t => nth (length ib) (shp t) 0) (firstn k ts))) :: ia).
  Proof.
    revert ts i. induction k as [|k IH]; intros [|t0 ts] i Ht Hlo Hhi; try discriminate.
    - cbn in Ht. inversion Ht; subst t0. cbn [firstn map list_sum fold_right] in *. cbn [concat_get].
      rewrite nth_mid by auto. rewrite Nat.add_0_r in Hhi.
      replace (i <? nth (length ib) (shp t) 0) with true by (symmetry; apply Nat.ltb_lt; auto).
      rewrite Nat.sub_0_r. reflexivity.
    - cbn [nth_error] in Ht. cbn [concat_get]. rewrite nth_mid by auto.
      rewrite (firstn_cons (S k)) in Hhi. rewrite (firstn_cons k) in *. cbn [map list_sum fold_right] in *.
      fold (list_sum (map (fun t => nth (length ib) (shp t) 0) (firstn k ts))) in *.
      fold (list_sum (map (fun t => nth (length ib) (shp t) 0) (firstn (S k) ts))) in *.
      set (d := nth (length ib) (shp t0) 0) in *.
      replace (i <? d) with false by (symmetry; apply Nat.ltb_ge; lia).
      rewrite replace_nth_mid by auto. rewrite IH; auto; try lia.
      f_equal. f_equal. f_equal. lia.
  Qed.

  (** every position on the packed axis belongs to one piece *)
  Lemma offset_cover ms i : i < list_sum (map prodn ms) ->
    exists k m im, nth_error ms k = Some m /\ inb m im = true /\ i = offset ms k + ravel m im.
  Proof.
    revert i. induction ms as [|m ms IH]; intros i H; [cbn in H; lia|].
    cbn [map list_sum fold_right] in H. fold (list_sum (map prodn ms)) in H.
    destruct (Nat.lt_ge_cases i (prodn m)) as [Hi|Hi].
    - destruct (nth_error (indices m) i) as [im|] eqn:E; [|apply nth_error_None in E; rewrite indices_length in E; lia].
      exists 0, m, im. split; [reflexivity|]. split; [apply indices_In; eapply nth_error_In; eauto|].
      rewrite (indices_nth_inv _ _ _ E). reflexivity.
    - destruct (IH (i - prodn m) ltac:(lia)) as [k [m' [im [H1 [H2 H3]]]]].
      exists (S k), m', im. repeat split; auto. unfold offset in *. cbn [firstn map list_sum fold_right].
      fold (list_sum (map prodn (firstn k ms))). lia.
  Qed.

  Lemma consists_unique b a x x' ms ts : consists_of b a x ms ts -> consists_of b a x' ms ts -> x = x'.
  Proof.
    intros [W [S [L G]]] [W' [S' [L' G']]]. apply tensor_ext; auto; [congruence|].
    intros idx Hi. rewrite S in Hi. apply inb_split3 in Hi as [ib [im [ia [-> [H1 [H2 H3]]]]]].
    destruct im as [|i [|? ?]]; try discriminate; [|cbn in H2; rewrite andb_false_r in H2; discriminate].
    apply inb_one in H2. destruct (offset_cover ms i H2) as [k [m [im [Hk [Hm ->]]]]].
    destruct (nth_error ts k) as [t|] eqn:Et; [|apply nth_error_None in Et; assert (k < length ms) by (apply nth_error_Some; congruence); lia].
    destruct (G k m t Hk Et) as [_ [_ E]]. destruct (G' k m t Hk Et) as [_ [_ E']].
    rewrite <- E, <- E' by auto. reflexivity.
  Qed.

  Lemma consists_pieces_unique b a x ms ts ts' : consists_of b a x ms ts -> consists_of b a x ms ts' -> ts = ts'.
  Proof.
    intros [_ [_ [L G]]] [_ [_ [L' G']]]. apply list_ext. intros k.
    destruct (nth_error ts k) as [t|] eqn:E, (nth_error ts' k) as [t'|] eqn:E'.
    - destruct (nth_error ms k) as [m|] eqn:Em.
      + f_equal. eapply piece_unique; eauto.
      + apply nth_error_None in Em. assert (k < length ts) by (apply nth_error_Some; congruence). lia.
    - apply nth_error_None in E'. assert (k < length ts) by (apply nth_error_Some; congruence). lia.
    - apply nth_error_None in E. assert (k < length ts') by (apply nth_error_Some; congruence). lia.
    - reflexivity.
  Qed.
End Pieces.
