(** * A batch in pieces *)
From Verif Require Import Py Tensor ListFacts TensorFacts SpecSem SpecGrammar SpecForms SpecPattern SpecOps Parsing Compile Recipe Ops Backends Api PackFacts2 ApiFacts4 FrontFacts2 SpecBatch BatchFacts Layers SpecLayers.

Section Chunks.
  Context {A : Type}.
  Implicit Types X x Y y t : tensor A.

  Notation ins k s n := (firstn k s ++ n :: skipn k s).
  Notation total k ts := (list_sum (map (count_at k) ts)).

  Lemma replace_ins k (s : list nat) m n : k <= length s -> replace_nth k m (ins k s n) = ins k s m.
  Proof.
    intros Hk. unfold replace_nth. assert (E : k = length (firstn k s)) by (rewrite firstn_length; lia).
    rewrite firstn_app, firstn_firstn, Nat.min_id, <- E, Nat.sub_diag. cbn [firstn]. rewrite app_nil_r. f_equal.
    rewrite skipn_app, <- E, Nat.sub_diag, skipn_all2 by (rewrite <- E; lia). reflexivity.
  Qed.
  Lemma count_ins k s n t : k <= length s -> shp t = ins k s n -> count_at k t = n.
  Proof. intros Hk E. unfold count_at. rewrite E. apply (put_back k n s Hk). Qed.

  (** where an index of the whole is *)
  Lemma place_of (c : tensor A -> nat) ts i : i < list_sum (map c ts) ->
    exists m t j, nth_error ts m = Some t /\ j < c t /\ i = list_sum (map c (firstn m ts)) + j.
  Proof.
    revert i. induction ts as [|t ts IH]; intros i Hi; cbn [map list_sum fold_right] in Hi; [lia|].
    destruct (Nat.lt_ge_cases i (c t)) as [H|H].
    - exists 0, t, i. cbn. auto.
    - destruct (IH (i - c t)) as (m & t' & j & E & Hj & Ei); [unfold list_sum; lia|].
      exists (S m), t', j. split; [exact E|]. split; [exact Hj|]. cbn [firstn map list_sum fold_right]. unfold list_sum in Ei. lia.
  Qed.
  Lemma place_in (c : tensor A -> nat) ts m t : nth_error ts m = Some t ->
    list_sum (map c (firstn (S m) ts)) = list_sum (map c (firstn m ts)) + c t /\ list_sum (map c (firstn (S m) ts)) <= list_sum (map c ts).
  Proof.
    revert ts. induction m as [|m IH]; intros [|t0 ts] E; try discriminate.
    - injection E as ->. cbn. lia.
    - destruct (IH ts E) as [I1 I2]. cbn [firstn map list_sum fold_right] in *. unfold list_sum in *. lia.
  Qed.

  Lemma concat_slices k s ts : ts <> [] -> k <= length s ->
    (forall t, In t ts -> wf t /\ shp t = ins k s (count_at k t)) ->
    exists X, t_concat ts k = Ok X /\ wf X /\ shp X = ins k s (total k ts) /\
      forall m t j, nth_error ts m = Some t -> j < count_at k t ->
        exists x, shp x = s /\ slice_of k j t x /\ slice_of k (total k (firstn m ts) + j) X x.
  Proof.
    intros Hne Hk Hts. destruct ts as [|t0 tl]; [contradiction|]. set (ts := t0 :: tl) in *.
    assert (H0 : In t0 ts) by (now left).
    assert (GET : forall m t j idx, nth_error ts m = Some t -> j < count_at k t -> length idx = length s ->
      concat_get ts k (ins k idx (total k (firstn m ts) + j)) = getr t (ins k idx j)).
    { intros m t j idx E Hj El. destruct (place_in (count_at k) ts m t E) as [P1 P2].
      assert (Ek : length (firstn k idx) = k) by (rewrite firstn_length; lia).
      pose proof (concat_get_spec ts (firstn k idx) (skipn k idx) (total k (firstn m ts) + j) m t E) as G.
      rewrite Ek in G. change (fun t => nth k (shp t) 0) with (@count_at A k) in G.
      rewrite G by lia. f_equal. f_equal. f_equal. lia. }
    destruct (tabulate_total (ins k s (total k ts)) (concat_get ts k)) as [X TX].
    { intros idx Hin. pose proof (inb_length _ _ Hin) as El. rewrite ins_length in El by exact Hk.
      destruct (split_at k idx) as [Ed Ejl]; [lia|]. rewrite Ed in Hin. rewrite ins_inb in Hin by lia.
      apply andb_true_iff in Hin as [Hi Hin]. apply Nat.ltb_lt in Hi. destruct (place_of (count_at k) ts _ Hi) as (m & t & j & E & Hj & Ei).
      rewrite Ed, Ei, (GET m t j) by (auto; lia). destruct (Hts t (nth_error_In _ _ E)) as [Wt St].
      apply getr_wf; [exact Wt|]. rewrite St, ins_inb, Hin, andb_true_r by (auto; lia). now apply Nat.ltb_lt. }
    destruct (tabulate_Ok _ _ _ TX) as (WX & SX & GX). exists X. split.
    { unfold t_concat, ts. fold ts. destruct (Hts t0 H0) as [_ S0].
      assert (L0 : k <? length (shp t0) = true) by (apply Nat.ltb_lt; rewrite S0, ins_length by exact Hk; lia).
      rewrite L0. assert (EF : forallb (fun t => shape_eqb (replace_nth k 0 (shp t)) (replace_nth k 0 (shp t0))) ts = true).
      { apply forallb_forall. intros t Ht. apply shape_eqb_eq. destruct (Hts t Ht) as [_ St]. rewrite St, S0, !replace_ins by exact Hk. reflexivity. }
      rewrite EF. cbn [andb]. rewrite S0, replace_ins by exact Hk. exact TX. }
    split; [exact WX|]. split; [exact SX|]. intros m t j E Hj. destruct (Hts t (nth_error_In _ _ E)) as [Wt St].
    destruct (slice_exists t k (count_at k t) s j Wt Hk St Hj) as (x & Sx & Ex). exists x. split; [exact Ex|]. split; [exact Sx|].
    destruct Sx as (_ & Wx & Hkx & _ & G). split; [exact WX|]. split; [exact Wx|]. split; [exact Hkx|]. rewrite Ex.
    destruct (place_in (count_at k) ts m t E) as [P1 P2]. assert (Hlt : total k (firstn m ts) + j < total k ts) by lia.
    split; [exists (total k ts); auto|]. intros idx El. rewrite Ex in G. rewrite (G idx El). destruct (inb s idx) eqn:Ei.
    - assert (Hin : inb (ins k s (total k ts)) (ins k idx (total k (firstn m ts) + j)) = true).
      { rewrite ins_inb, Ei, andb_true_r by auto. now apply Nat.ltb_lt. }
      pose proof (GX _ Hin) as Gx. rewrite (GET m t j idx E Hj El) in Gx. unfold getr in Gx.
      destruct (get_wf X (ins k idx (total k (firstn m ts) + j)) WX) as [a Ha]; [rewrite SX; exact Hin|]. rewrite Ha in Gx |- *. cbn in Gx.
      destruct (get t (ins k idx j)); cbn in Gx; congruence.
    - unfold get. rewrite St, SX, !ins_inb, Ei, !andb_false_r by auto. reflexivity.
  Qed.

  Lemma replace_back k (s u : list nat) : k < length u -> replace_nth k 0 s = replace_nth k 0 u ->
    s = ins k (take_out k u) (nth k s 0).
  Proof.
    intros Hk E. unfold replace_nth in E. assert (Ls : k < length s).
    { destruct (Nat.lt_ge_cases k (length s)) as [H|H]; [exact H|]. apply (f_equal (@length nat)) in E.
      rewrite !app_length, !firstn_length in E. rewrite (skipn_all2 s) in E by lia.
      destruct (skipn k u) eqn:Eu; [apply (f_equal (@length nat)) in Eu; rewrite skipn_length in Eu; cbn in Eu; lia|]. cbn [length] in E. 
      apply (f_equal (@length nat)) in Eu. rewrite skipn_length in Eu. cbn [length] in Eu. lia. }
    destruct (split_at k s Ls) as [Es _]. assert (Et : take_out k s = take_out k u); [|now rewrite <- Et].
    unfold take_out.
    assert (K : forall l : list nat, k < length l -> exists a, skipn k l = a :: skipn (S k) l).
    { clear. induction k as [|k IH]; intros [|a l] H; cbn [length] in H; try lia; [exists a; reflexivity|]. apply IH. lia. }
    destruct (K s Ls) as [a Ea]. destruct (K u Hk) as [a' Ea']. rewrite Ea, Ea' in E.
    assert (E1 := f_equal (firstn k) E). assert (E2 := f_equal (skipn k) E). assert (Lf : forall l : list nat, k < length l -> length (firstn k l) = k) by (intros; rewrite firstn_length; lia).
    rewrite !firstn_app, !firstn_firstn, Nat.min_id, !Lf, Nat.sub_diag in E1 by assumption. cbn [firstn] in E1. rewrite !app_nil_r in E1.
    assert (Sf : forall l q : list nat, k < length l -> skipn k (firstn k l ++ q) = q).
    { intros l q H. rewrite skipn_app, (Lf l H), Nat.sub_diag, skipn_all2 by (rewrite Lf; auto). reflexivity. }
    rewrite !Sf in E2 by assumption. injection E2 as E2. cbn [skipn] in *. now rewrite E1, E2.
  Qed.

  Lemma concat_shapes ts k X : t_concat ts k = Ok X ->
    ts <> [] /\ exists s, k <= length s /\ forall t, In t ts -> shp t = ins k s (count_at k t).
  Proof.
    unfold t_concat. destruct ts as [|t0 tl]; [discriminate|]. destruct (k <? length (shp t0)) eqn:Ek; [|discriminate].
    apply Nat.ltb_lt in Ek. cbn [andb]. destruct (forallb _ (t0 :: tl)) eqn:Ef; [|discriminate]. intros _. split; [discriminate|].
    exists (take_out k (shp t0)). destruct (split_at k (shp t0) Ek) as [_ El]. split; [lia|]. intros t Ht.
    rewrite forallb_forall in Ef. apply Ef, shape_eqb_eq in Ht. exact (replace_back k (shp t) (shp t0) Ek Ht).
  Qed.

  Lemma choose2 {B C} (P : B -> C -> Prop) l : (forall b, In b l -> exists c, P b c) -> exists cs, Forall2 P l cs.
  Proof.
    induction l as [|b l IH]; intros H; [exists []; constructor|]. destruct (H b) as [c Hc]; [now left|].
    destruct IH as [cs Hcs]; [intros; apply H; now right|]. exists (c :: cs). now constructor.
  Qed.
  Lemma forall2_fun {B C} (f : B -> result C) l cs cs' : Forall2 (fun b c => f b = Ok c) l cs -> Forall2 (fun b c => f b = Ok c) l cs' -> cs = cs'.
  Proof.
    intros F. revert cs'. induction F as [|b c l cs E F IH]; intros cs' F'; inversion F'; subst; [reflexivity|]. f_equal; [congruence|auto].
  Qed.
  Lemma forall2_nth {B C} (P : B -> C -> Prop) l cs m b : Forall2 P l cs -> nth_error l m = Some b -> exists c, nth_error cs m = Some c /\ P b c.
  Proof.
    intros F. revert m. induction F as [|b0 c0 l cs E F IH]; intros [|m] H; try discriminate; [injection H as ->; exists c0; auto|]. now apply IH.
  Qed.
  Lemma forall2_total c c' (F : tensor A -> result (tensor A)) l cs m : Forall2 (fun x y => F x = Ok y /\ c' y = c x) l cs ->
    list_sum (map c' (firstn m cs)) = list_sum (map c (firstn m l)) /\ list_sum (map c' cs) = list_sum (map c l).
  Proof.
    intros H. revert m. induction H as [|b0 c0 l cs [_ E] H IH]; intros m; [rewrite !firstn_nil; auto|].
    destruct (IH (pred m)) as [I1 I2]. split; [destruct m; [reflexivity|]|]; cbn [firstn map list_sum fold_right pred] in *; unfold list_sum in *; lia.
  Qed.

  (** tensors whose slices are those of [Y], one after the other *)
  Lemma concat_of_slices k ns Y Ys : ns <> [] -> (forall n, In n ns -> n <> 0) -> count_at k Y = list_sum ns -> map (count_at k) Ys = ns ->
    (forall m n y j, nth_error ns m = Some n -> nth_error Ys m = Some y -> j < n ->
       exists z, slice_of k j y z /\ slice_of k (list_sum (firstn m ns) + j) Y z) -> t_concat Ys k = Ok Y.
  Proof.
    intros Hne H0 CY CYs SL.
    assert (AT : forall m y, nth_error Ys m = Some y -> nth_error ns m = Some (count_at k y)).
    { intros m y E. rewrite <- CYs. now apply map_nth_error. }
    destruct Ys as [|y1 Yl]; [cbn in CYs; congruence|]. set (Ys := y1 :: Yl) in *.
    assert (N1 : count_at k y1 <> 0) by (apply H0; rewrite <- CYs; now left).
    destruct (SL 0 (count_at k y1) y1 0 (AT 0 y1 eq_refl) eq_refl) as (z0 & Z1 & Z2); [lia|].
    pose proof (slice_shape _ _ _ _ Z2) as [ShY _]. assert (Hk : k <= length (shp z0)) by (destruct Z2 as (_ & _ & H & _); exact H).
    assert (WY : wf Y) by (destruct Z2; tauto).
    assert (SAME : forall i y, slice_of k i Y y -> shp y = shp z0).
    { intros i y Sy. pose proof (slice_shape _ _ _ _ Sy) as [Sh _]. rewrite ShY in Sh. destruct Sy as (_ & _ & Hy & _).
      apply (f_equal (take_out k)) in Sh. rewrite (proj2 (put_back k _ _ Hk)), (proj2 (put_back k _ _ Hy)) in Sh. congruence. }
    destruct (concat_slices k (shp z0) Ys) as (Z & EZ & WZ & SZ & SLZ); [discriminate|exact Hk| |].
    { intros y Hy. destruct (In_nth_error _ _ Hy) as [m Em]. assert (Ny : count_at k y <> 0) by (apply H0; exact (nth_error_In _ _ (AT m y Em))).
      destruct (SL m _ y 0 (AT m y Em) Em) as (z & S1 & S2); [lia|]. split; [destruct S1; tauto|]. rewrite <- (SAME _ _ S2). exact (proj1 (slice_shape _ _ _ _ S1)). }
    rewrite EZ. f_equal. rewrite CYs in SZ. apply (slices_fun k (count_at k Y) (shp z0)); auto.
    - rewrite SZ, CY. reflexivity.
    - rewrite SZ, <- CY. exact ShY.
    - intros i Hi. rewrite CY, <- CYs in Hi. destruct (place_of _ _ _ Hi) as (m & y & j & Ey & Hj & Ei).
      destruct (SL m _ y j (AT m y Ey) Ey Hj) as (z & S1 & S2). rewrite <- CYs, firstn_map, <- Ei in S2. exists z. split; [|exact S2].
      destruct (SLZ m y j Ey Hj) as (z3 & _ & S3 & S4). rewrite (slice_fun _ _ _ _ _ S3 S1), <- Ei in S4. exact S4.
  Qed.

  (** an operation given by an operation on slices *)
  Section Abstract.
    Variables (F F0 : tensor A -> result (tensor A)) (k k' : nat) (s : list nat).
    Hypothesis (Hk : k <= length s).
    Variable ok : tensor A -> Prop.
    Hypothesis (DOWN : forall X Y x i, ok X -> shp x = s -> slice_of k i X x -> F X = Ok Y ->
      count_at k' Y = count_at k X /\ exists y, slice_of k' i Y y /\ F0 x = Ok y).
    Hypothesis (UP : forall X n, ok X -> wf X -> n <> 0 -> shp X = ins k s n ->
      (forall i, i < n -> exists x y, slice_of k i X x /\ F0 x = Ok y) -> exists Y, F X = Ok Y).

    Lemma chunks_down Xs X Y : t_concat Xs k = Ok X -> (forall x, In x Xs -> ok x /\ wf x /\ shp x = ins k s (count_at k x) /\ count_at k x <> 0) -> ok X ->
      F X = Ok Y -> exists Ys, Forall2 (fun x y => F x = Ok y) Xs Ys /\ t_concat Ys k' = Ok Y.
    Proof.
      intros HX HXs OX HY. destruct (concat_shapes _ _ _ HX) as [Hne _].
      destruct (concat_slices k s Xs Hne Hk) as (X2 & E2 & WX & SX & SL). { intros t Ht. apply HXs in Ht. tauto. }
      rewrite HX in E2. injection E2 as <-. clear HX.
      assert (EX : forall x, In x Xs -> exists y, F x = Ok y /\ count_at k' y = count_at k x).
      { intros t Ht. destruct (HXs t Ht) as (Ot & Wt & St & Nt). destruct (In_nth_error _ _ Ht) as [m Em].
        assert (EY : exists y, F t = Ok y).
        { apply (UP t (count_at k t) Ot Wt Nt St). intros j Hj. destruct (SL m t j Em Hj) as (x & Sx & S1 & S2).
          destruct (DOWN X Y x _ OX Sx S2 HY) as [_ (y & _ & Ey)]. eauto. }
        destruct EY as [y Ey]. exists y. split; [exact Ey|]. destruct (SL m t 0 Em) as (x & Sx & S1 & _); [lia|].
        exact (proj1 (DOWN t y x 0 Ot Sx S1 Ey)). }
      destruct (choose2 _ Xs EX) as [Ys FY]. exists Ys.
      assert (FY' : Forall2 (fun x y => F x = Ok y) Xs Ys) by (clear - FY; induction FY as [|x y l l' [E _] FY IH]; constructor; auto).
      split; [exact FY'|].
      destruct Xs as [|t0 Xl]; [contradiction|]. destruct (SL 0 t0 0 eq_refl) as (x0 & Sx0 & S10 & S20).
      { destruct (HXs t0 (or_introl eq_refl)) as (_ & _ & _ & N). lia. }
      destruct (DOWN X Y x0 _ OX Sx0 S20 HY) as [CY (y0 & Sy0 & Ey0)]. pose proof (slice_shape _ _ _ _ Sy0) as [ShY _].
      assert (Hk' : k' <= length (shp y0)) by (destruct Sy0 as (_ & _ & H & _); exact H).
      assert (WY : wf Y) by (destruct Sy0; tauto).
      assert (SAME : forall i y, slice_of k' i Y y -> shp y = shp y0).
      { intros i y Sy. pose proof (slice_shape _ _ _ _ Sy) as [Sh _]. rewrite ShY in Sh. destruct Sy as (_ & _ & Hy & _).
        apply (f_equal (take_out k')) in Sh. rewrite (proj2 (put_back k' _ _ Hk')), (proj2 (put_back k' _ _ Hy)) in Sh. congruence. }
      set (Xs := t0 :: Xl) in *. assert (TX : count_at k X = total k Xs) by (apply (count_ins k s); auto).
      destruct (concat_slices k' (shp y0) Ys) as (Z & EZ & WZ & SZ & SLZ).
      { intros ->. inversion FY. }
      { exact Hk'. }
      { intros y Hy. destruct (In_nth_error _ _ Hy) as [m Em].
        assert (FYf : Forall2 (fun (y x : tensor A) => F x = Ok y /\ count_at k' y = count_at k x) Ys Xs) by (clear - FY; induction FY; constructor; auto).
        destruct (forall2_nth _ _ _ m y FYf Em) as (t & Et & Ft & Ct). pose proof (nth_error_In _ _ Et) as Ht.
        destruct (HXs t Ht) as (Ot & _ & _ & Nt). destruct (SL m t 0 Et) as (x & Sx & S1 & S2); [lia|].
        destruct (DOWN t y x 0 Ot Sx S1 Ft) as [_ (y1 & Sy1 & Ey1)]. destruct (DOWN X Y x _ OX Sx S2 HY) as [_ (y2 & Sy2 & Ey2)].
        rewrite Ey1 in Ey2. injection Ey2 as <-. split; [destruct Sy1; tauto|]. rewrite <- (SAME _ _ Sy2). exact (proj1 (slice_shape _ _ _ _ Sy1)). }
      rewrite EZ. f_equal. destruct (forall2_total (count_at k) (count_at k') F Xs Ys 0 FY) as [_ TT].
      apply (slices_fun k' (count_at k' Y) (shp y0)); auto.
      - rewrite SZ. f_equal. f_equal. congruence.
      - rewrite SZ. rewrite ShY at 1. f_equal. f_equal. congruence.
      - intros i Hi. rewrite CY, TX in Hi. destruct (place_of _ _ _ Hi) as (m & t & j & Et & Hj & Ei).
        destruct (SL m t j Et Hj) as (x & Sx & S1 & S2). rewrite <- Ei in S2.
        destruct (forall2_nth _ _ _ m t FY Et) as (y & Ey & Fy & Cy). destruct (HXs t (nth_error_In _ _ Et)) as (Ot & _).
        destruct (DOWN t y x j Ot Sx S1 Fy) as [_ (y1 & Sy1 & Ey1)]. destruct (DOWN X Y x i OX Sx S2 HY) as [_ (y2 & Sy2 & Ey2)].
        rewrite Ey1 in Ey2. injection Ey2 as <-. exists y1. split; [|exact Sy2].
        destruct (SLZ m y j Ey) as (y3 & _ & S3 & S4); [lia|]. rewrite (slice_fun _ _ _ _ _ S3 Sy1) in S4.
        destruct (forall2_total (count_at k) (count_at k') F Xs Ys m FY) as [TM _]. rewrite TM, <- Ei in S4. exact S4.
    Qed.

    Lemma chunks Xs X Y : t_concat Xs k = Ok X -> (forall x, In x Xs -> ok x /\ wf x /\ shp x = ins k s (count_at k x) /\ count_at k x <> 0) -> ok X ->
      (F X = Ok Y <-> exists Ys, Forall2 (fun x y => F x = Ok y) Xs Ys /\ t_concat Ys k' = Ok Y).
    Proof.
      intros HX HXs OX. split; [now apply chunks_down|]. intros (Ys & FY & CY).
      destruct (concat_shapes _ _ _ HX) as [Hne _].
      destruct (concat_slices k s Xs Hne Hk) as (X2 & E2 & WX & SX & SL). { intros t Ht. apply HXs in Ht. tauto. }
      assert (E : X2 = X) by congruence. subst X2. clear E2.
      destruct (UP X (total k Xs) OX WX) as [Y2 HY2].
      { destruct Xs as [|t0 Xl]; [contradiction|]. destruct (HXs t0 (or_introl eq_refl)) as (_ & _ & _ & N). cbn [map list_sum fold_right]. lia. }
      { exact SX. }
      { intros i Hi. destruct (place_of _ _ _ Hi) as (m & t & j & Et & Hj & Ei). destruct (SL m t j Et Hj) as (x & Sx & S1 & S2).
        destruct (forall2_nth _ _ _ m t FY Et) as (y & _ & Fy). destruct (HXs t (nth_error_In _ _ Et)) as (Ot & _).
        destruct (DOWN t y x j Ot Sx S1 Fy) as [_ (y1 & _ & E1)].
        exists x, y1. rewrite Ei. auto. }
      destruct (chunks_down Xs X Y2 HX HXs OX HY2) as (Ys2 & FY2 & CY2). rewrite (forall2_fun F _ _ _ FY FY2) in CY. congruence.
    Qed.
  End Abstract.

  Lemma op_chunks (r : runtime A) (Hok : runtime_ok r) b (p p' : pystr) (L1 L2 R1 R2 : expr) (sizes : list (pystr * Z)) f e Xs X Y :
    b <> ell_name -> reads (rt_unicode r) p (L1 ++ L2) (R1 ++ R2) ->
    reads (rt_unicode r) p' (L1 ++ Atom (AName b) :: L2) (R1 ++ Atom (AName b) :: R2) ->
    ~ In b (map fst sizes) -> NoDup (map fst sizes) -> operation r p sizes f ->
    rank_fits (L1 ++ Atom (AName b) :: L2) (length (shp X)) e ->
    t_concat Xs (length (left_groups e L1)) = Ok X ->
    (forall x, In x Xs -> wf x /\ count_at (length (left_groups e L1)) x <> 0) ->
    (f (One X) p' = Ok Y <->
     exists Ys, Forall2 (fun x y => f (One x) p' = Ok y) Xs Ys /\ t_concat Ys (length (right_groups e (L1 ++ L2) R1)) = Ok Y).
  Proof.
    intros Hb Hp Hp' Hs Hn Hop Hr HX HXs. destruct (concat_shapes _ _ _ HX) as (Hne & s & Hk & Hsh).
    assert (SX : shp X = ins (length (left_groups e L1)) s (total (length (left_groups e L1)) Xs)).
    { destruct (concat_slices _ s Xs Hne Hk) as (X2 & E2 & _ & SX & _); [intros t Ht; split; [apply HXs, Ht|apply Hsh, Ht]|]. congruence. }
    assert (Hr' : rank_fits (L1 ++ L2) (length s) e).
    { apply (more_rank b L1 L2). rewrite SX, ins_length in Hr by exact Hk. exact Hr. }
    apply (chunks (fun x => f (One x) p') (fun x => f (One x) p) (length (left_groups e L1)) (length (right_groups e (L1 ++ L2) R1)) s Hk (fun _ => True)); auto.
    - intros X0 Y0 x i _ Sx HS HY. apply (op_slices r Hok b p p' L1 L2 R1 R2 sizes Hb Hp Hp' Hs Hn f e X0 Y0 x i); auto. rewrite Sx. exact Hr'.
    - intros X0 n _ W N Sh H. exact (op_returns r Hok b p p' L1 L2 R1 R2 sizes Hb Hp Hp' Hs Hn f e X0 s n Hop W N Hk Sh Hr' H).
    - intros x Hx. split; [exact I|]. split; [apply HXs, Hx|]. split; [apply Hsh, Hx|apply HXs, Hx].
  Qed.

  Lemma layer_chunks (r : runtime A) (Hok : runtime_ok r) b (p p' : pystr) (L1 L2 R1 R2 : expr) (sizes : list (pystr * Z)) f e (M : layer (tensor A)) Xs X Y :
    b <> ell_name -> reads (rt_unicode r) p (L1 ++ L2) (R1 ++ R2) ->
    reads (rt_unicode r) p' (L1 ++ Atom (AName b) :: L2) (R1 ++ Atom (AName b) :: R2) ->
    ~ In b (map fst sizes) -> NoDup (map fst sizes) -> operation r p sizes f ->
    like_function r M p' (fun x => f (One x) p') ->
    rank_fits (L1 ++ Atom (AName b) :: L2) (length (shp X)) e -> e < 8 ->
    t_concat Xs (length (left_groups e L1)) = Ok X ->
    (forall x, In x Xs -> wf x /\ count_at (length (left_groups e L1)) x <> 0) ->
    (call_layer r M X = Ok Y <->
     exists Ys, Forall2 (fun x y => call_layer r M x = Ok y) Xs Ys /\ t_concat Ys (length (right_groups e (L1 ++ L2) R1)) = Ok Y).
  Proof.
    intros Hb Hp Hp' Hs Hn Hop (l & rr & Hl & Hlike) Hr He HX HXs.
    destruct (reads_fun (rt_unicode r) (ro_unicode _ Hok) _ _ _ _ _ Hl Hp') as [-> ->].
    destruct (concat_shapes _ _ _ HX) as (Hne & s & Hk & Hsh).
    assert (SX : shp X = ins (length (left_groups e L1)) s (total (length (left_groups e L1)) Xs)).
    { destruct (concat_slices _ s Xs Hne Hk) as (X2 & E2 & _ & SX & _); [intros t Ht; split; [apply HXs, Ht|apply Hsh, Ht]|]. congruence. }
    assert (LX : forall x, In x Xs -> length (shp x) = length (shp X)).
    { intros x Hx. rewrite (Hsh x Hx), SX, !ins_length by exact Hk. reflexivity. }
    rewrite (proj1 (Hlike X) e Hr He). rewrite (op_chunks r Hok b p p' L1 L2 R1 R2 sizes f e Xs X Y) by assumption.
    assert (EQ : forall Ys, Forall2 (fun x y => f (One x) p' = Ok y) Xs Ys <-> Forall2 (fun x y => call_layer r M x = Ok y) Xs Ys).
    { assert (EQ1 : forall x, In x Xs -> call_layer r M x = f (One x) p').
      { intros x Hx. apply (proj1 (Hlike x) e); [rewrite LX by exact Hx; exact Hr|exact He]. }
      clear - EQ1. induction Xs as [|x Xs IH]; intros Ys; split; intros F; inversion F; subst; constructor.
      - rewrite EQ1 by (now left). assumption.
      - apply IH; [intros; apply EQ1; now right|assumption].
      - rewrite <- EQ1 by (now left). assumption.
      - apply IH; [intros; apply EQ1; now right|assumption]. }
    split; intros (Ys & F & C); exists Ys; (split; [apply EQ, F|exact C]).
  Qed.
End Chunks.
