(** * Patterns that do the same have the same right side *)
From Verif Require Import Py Tensor ListFacts TensorFacts SpecSem SpecGrammar SpecPattern SpecOps Parsing Recipe Ops Backends Api StepFacts ReduceFacts FrontFacts3 MainFacts MainFacts3 ApiFacts ApiFacts2 ApiFacts4 EinsumAlike.

(** ** lists of axes are determined by the positions they give *)
Section Strides.
  Context (len : label -> nat).
  (** index 1 on one axis and 0 on all others *)
  Definition only (a : label) : label -> nat := fun c => if label_eqb a c then 1 else 0.

  Lemma only_same a : only a a = 1.
  Proof. unfold only. now rewrite (proj2 (label_eqb_eq a a) eq_refl). Qed.
  Lemma only_other a c : a <> c -> only a c = 0.
  Proof. intros H. unfold only. destruct (label_eqb a c) eqn:E; [apply label_eqb_eq in E; congruence|reflexivity]. Qed.
  Lemma ravel_zero s n : ravel s (repeat 0 n) = 0.
  Proof. revert n. induction s as [|d s IH]; intros [|n]; cbn; auto. Qed.
  Lemma only_out a g : ~ In a g -> map (only a) g = repeat 0 (length g).
  Proof. induction g as [|c g IH]; intros H; cbn; [reflexivity|]. rewrite only_other, IH; auto; [intros X; apply H; right; auto|intros ->; apply H; left; auto]. Qed.
  Lemma ravel_snoc g a (ix : label -> nat) : ravel (map len (g ++ [a])) (map ix (g ++ [a])) = ravel (map len g) (map ix g) * len a + ix a.
  Proof. rewrite !map_app, ravel_app by now rewrite !map_length. cbn. lia. Qed.

  Lemma same_positions g : forall g', NoDup g -> NoDup g' -> (forall a, In a g -> 2 <= len a) -> (forall a, In a g' -> 2 <= len a) ->
    (forall a, ravel (map len g) (map (only a) g) = ravel (map len g') (map (only a) g')) -> g = g'.
  Proof.
    induction g as [|z g IH] using rev_ind; intros g' N N' B B' E.
    - destruct g' as [|z g' _] using rev_ind; [reflexivity|]. exfalso. specialize (E z). rewrite ravel_snoc, only_same in E. cbn in E. lia.
    - apply NoDup_app_iff in N as (N & _ & D).
      destruct g' as [|z' g' _] using rev_ind.
      + exfalso. specialize (E z). rewrite ravel_snoc, only_same in E. cbn in E. lia.
      + apply NoDup_app_iff in N' as (N' & _ & D').
        assert (Bz : 2 <= len z) by (apply B, in_or_app; right; left; auto).
        assert (Bz' : 2 <= len z') by (apply B', in_or_app; right; left; auto).
        assert (Ez : z = z').
        { destruct (label_eq_dec z z') as [X|X]; [exact X|]. exfalso. specialize (E z). rewrite !ravel_snoc, only_same, (only_other z z' X) in E.
          rewrite only_out, ravel_zero in E; [|intros Y; exact (D z Y (or_introl eq_refl))].
          revert E. generalize (ravel (map len g') (map (only z) g')). intros [|q] E; nia. }
        subst z'. f_equal. apply IH; auto; [intros a Ha; apply B, in_or_app; auto|intros a Ha; apply B', in_or_app; auto|].
        intros a. specialize (E a). rewrite !ravel_snoc in E. nia.
  Qed.

  Lemma same_groups gs : forall gs', NoDup (concat gs) -> NoDup (concat gs') -> (forall a, In a (concat gs) -> 2 <= len a) -> (forall a, In a (concat gs') -> 2 <= len a) ->
    (forall a, gindex len (only a) gs = gindex len (only a) gs') -> gs = gs'.
  Proof.
    induction gs as [|g gs IH]; intros [|g' gs'] N N' B B' E; [reflexivity|specialize (E (LDots 0)); discriminate|specialize (E (LDots 0)); discriminate|].
    cbn in N, N', B, B'. apply NoDup_app_iff in N as (N1 & N2 & _). apply NoDup_app_iff in N' as (N1' & N2' & _). f_equal.
    - apply same_positions; auto; [intros a Ha; apply B, in_or_app; auto|intros a Ha; apply B', in_or_app; auto|]. intros a. specialize (E a). cbn in E. now inversion E.
    - apply IH; auto; [intros a Ha; apply B, in_or_app; auto|intros a Ha; apply B', in_or_app; auto|]. intros a. specialize (E a). cbn in E. now inversion E.
  Qed.
End Strides.

(** ** a tensor with one special element *)
Section Hot.
  Context {A : Type} (a b : A).
  Definition hot (s idx : list nat) : tensor A := mkT s (map (fun i => if list_eq_dec Nat.eq_dec i idx then b else a) (indices s)).

  Lemma hot_wf s idx : wf (hot s idx).
  Proof. unfold wf, hot; cbn. now rewrite map_length, indices_length. Qed.
  Lemma hot_get s idx i : inb s i = true -> get (hot s idx) i = Some (if list_eq_dec Nat.eq_dec i idx then b else a).
  Proof. intros H. unfold get, hot; cbn [shp dat]. rewrite H. rewrite nth_error_map, (indices_nth s i H). reflexivity. Qed.

  Lemma all_cold {X} (f : X -> bool) l : (forall v, In v l -> f v = false) -> map (fun v => if f v then b else a) l = repeat a (length l).
  Proof. induction l as [|v l IH]; intros H; cbn; [reflexivity|]. rewrite (H v (or_introl eq_refl)), IH; [reflexivity|]. intros w Hw. apply H. right; auto. Qed.
  Lemma one_hot {X} (f : X -> bool) l v0 : NoDup l -> In v0 l -> (forall v, In v l -> (f v = true <-> v = v0)) ->
    exists k m, map (fun v => if f v then b else a) l = repeat a k ++ b :: repeat a m /\ S (k + m) = length l.
  Proof.
    intros N I H. apply in_split in I as (l1 & l2 & ->). exists (length l1), (length l2). split; [|rewrite app_length; cbn; lia].
    apply NoDup_remove in N as [_ N]. rewrite map_app. cbn [map].
    rewrite (proj2 (H v0 (in_elt v0 l1 l2)) eq_refl), !all_cold; [reflexivity| |].
    - intros v Hv. destruct (f v) eqn:E; [|reflexivity]. exfalso. apply H in E; [subst; apply N, in_or_app; auto|apply in_or_app; right; right; auto].
    - intros v Hv. destruct (f v) eqn:E; [|reflexivity]. exfalso. apply H in E; [subst; apply N, in_or_app; auto|apply in_or_app; auto].
  Qed.

  Context (gl gr : list (list label)) (len : label -> nat).
  Hypothesis (Nl : NoDup (concat gl)) (Nr : NoDup (concat gr)) (Hi : incl (concat gr) (concat gl)).
  Context (ix0 : label -> nat).
  Hypothesis W0 : within len ix0 (concat gl).
  Notation ms := (missing gl gr).
  Notation x0 := (hot (gshape len gl) (gindex len ix0 gl)).

  Lemma gindex_agree ix jx gs : within len ix (concat gs) -> within len jx (concat gs) -> gindex len ix gs = gindex len jx gs ->
    forall c, In c (concat gs) -> ix c = jx c.
  Proof.
    intros W W' E. assert (F : map ix (concat gs) = map jx (concat gs)).
    { apply (ravel_inj (map len (concat gs))); [apply inb_within; auto|apply inb_within; auto|]. rewrite <- !ravel_gindex. now rewrite E. }
    clear -F. induction (concat gs) as [|d l IH]; intros c [].
    - subst. cbn in F. now inversion F.
    - cbn in F. inversion F. auto.
  Qed.

  Lemma within_filled ix v : within len ix (concat gr) -> inb (map len ms) v = true -> within len (assign label_eqb ix ms v) (concat gl).
  Proof.
    intros Hix Hv c Hc. destruct (in_dec label_eq_dec c (concat gr)) as [X|X].
    - rewrite (assign_out label_eqb label_eqb_eq); [apply Hix; auto|]. rewrite in_missing; tauto.
    - apply (within_assign label_eqb label_eqb_eq len ix _ v); [apply NoDup_filter; exact Nl|exact Hv|]. apply in_missing; auto.
  Qed.

  Definition lit_up ix v : bool := if list_eq_dec Nat.eq_dec (gindex len (assign label_eqb ix ms v) gl) (gindex len ix0 gl) then true else false.

  Lemma hot_elements ix : within len ix (concat gr) ->
    elements x0 len gl ms ix = map Some (map (fun v => if lit_up ix v then b else a) (indices (map len ms))).
  Proof.
    intros Hix. unfold elements. rewrite map_map. apply map_ext_in. intros v Hv. apply indices_In in Hv.
    rewrite hot_get by (apply inb_gindex, within_filled; auto). unfold lit_up. destruct (list_eq_dec _ _ _); reflexivity.
  Qed.

  Lemma lit_iff ix v : within len ix (concat gr) -> inb (map len ms) v = true ->
    (lit_up ix v = true <-> (forall c, In c (concat gr) -> ix c = ix0 c) /\ v = map ix0 ms).
  Proof.
    intros Hix Hv. pose proof (within_filled ix v Hix Hv) as Wf.
    assert (Nm : NoDup ms) by (apply NoDup_filter; exact Nl).
    assert (Lv : length v = length ms) by (apply inb_length in Hv; now rewrite map_length in Hv).
    unfold lit_up. destruct (list_eq_dec _ _ _) as [E|E]; split; intros H; try discriminate; try reflexivity.
    - pose proof (gindex_agree _ _ gl Wf W0 E) as G. split.
      + intros c Hc. rewrite <- (G c (Hi c Hc)). rewrite (assign_out label_eqb label_eqb_eq); [reflexivity|]. rewrite in_missing; tauto.
      + rewrite <- (assign_map label_eqb label_eqb_eq ix ms v Nm Lv). apply map_ext_in. intros c Hc. apply G. apply in_missing in Hc. tauto.
    - exfalso. apply E. destruct H as [H ->]. apply gindex_same. intros c Hc. destruct (in_dec label_eq_dec c (concat gr)) as [X|X].
      + rewrite (assign_out label_eqb label_eqb_eq); [apply H; auto|]. rewrite in_missing; tauto.
      + assert (Hm : In c ms) by (apply in_missing; auto).
        pose proof (assign_map label_eqb label_eqb_eq ix ms (map ix0 ms) Nm (map_length _ _)) as F.
        clear -F Hm. revert Hm F. generalize (assign label_eqb ix ms (map ix0 ms)). intros q. revert c. induction ms as [|d l IH]; intros c [] F.
        * subst. cbn in F. now inversion F.
        * cbn in F. inversion F. auto.
  Qed.

  (** the elements that go to a position: exactly one of them is special if the
      position is that of [ix0], otherwise none *)
  Lemma hot_at ix : within len ix (concat gr) -> (forall c, In c (concat gr) -> ix c = ix0 c) ->
    exists k m, elements x0 len gl ms ix = map Some (repeat a k ++ b :: repeat a m) /\ S (k + m) = prodn (map len ms).
  Proof.
    intros Hix H. rewrite hot_elements by exact Hix.
    destruct (one_hot (lit_up ix) (indices (map len ms)) (map ix0 ms)) as (k & m & E & El).
    - apply indices_NoDup.
    - apply indices_In, inb_within. intros c Hc. apply W0. apply in_missing in Hc. tauto.
    - intros v Hv. apply indices_In in Hv. rewrite (lit_iff ix v Hix Hv). tauto.
    - exists k, m. rewrite E. split; [reflexivity|]. now rewrite El, indices_length.
  Qed.
  Lemma cold_at ix : within len ix (concat gr) -> ~ (forall c, In c (concat gr) -> ix c = ix0 c) ->
    elements x0 len gl ms ix = map Some (repeat a (prodn (map len ms))).
  Proof.
    intros Hix H. rewrite hot_elements by exact Hix. rewrite all_cold, indices_length; [reflexivity|].
    intros v Hv. apply indices_In in Hv. destruct (lit_up ix v) eqn:E; [|reflexivity]. apply (lit_iff ix v Hix Hv) in E. tauto.
  Qed.
  Lemma agree_dec ix : {forall c, In c (concat gr) -> ix c = ix0 c} + {~ (forall c, In c (concat gr) -> ix c = ix0 c)}.
  Proof.
    destruct (list_eq_dec Nat.eq_dec (map ix (concat gr)) (map ix0 (concat gr))) as [E|E].
    - left. clear -E. induction (concat gr) as [|d l IH]; intros c []; [subst; cbn in E; now inversion E|cbn in E; inversion E; auto].
    - right. intros H. apply E. apply map_ext_in. exact H.
  Qed.
End Hot.

(** ** telling two right sides apart *)
Section Apart.
  Context {A : Type} (a b : A) (red red' : list A -> result A) (gl gr gr' : list (list label)) (len : label -> nat).
  Hypothesis (Nl : NoDup (concat gl)) (Nr : NoDup (concat gr)) (Nr' : NoDup (concat gr')).
  Hypothesis (Hi : incl (concat gr) (concat gl)) (Hi' : incl (concat gr') (concat gl)).
  Hypothesis Hlen : forall c, In c (concat gl) -> 2 <= len c.
  Notation n := (prodn (map len (missing gl gr))).
  (** one special element makes a difference *)
  Hypothesis Hred : forall k m u v, S (k + m) = n -> red' (repeat a n) = Ok u -> red (repeat a k ++ b :: repeat a m) = Ok v -> u <> v.

  Lemma prod_missing g : NoDup (concat g) -> incl (concat g) (concat gl) -> prodn (map len (missing gl g)) * prodn (gshape len g) = prodn (map len (concat gl)).
  Proof.
    intros N I. rewrite prodn_gshape, <- prodn_app, <- map_app. apply prodn_perm, Permutation_map, NoDup_Permutation; auto.
    - apply NoDup_app_iff. split; [apply NoDup_filter; auto|]. split; [exact N|]. intros c Hc. apply in_missing in Hc. tauto.
    - intros c. rewrite in_app_iff, in_missing. destruct (in_dec label_eq_dec c (concat g)) as [X|X]; [pose proof (I c X); tauto|tauto].
  Qed.

  Lemma told_apart : (forall idx, inb (gshape len gl) idx = true -> exists y, reduces red gl gr len (hot a b (gshape len gl) idx) y /\ reduces red' gl gr' len (hot a b (gshape len gl) idx) y) ->
    gr = gr'.
  Proof.
    intros H. apply (same_groups len); auto. intros c0.
    assert (W0 : within len (only c0) (concat gl)).
    { intros c Hc. specialize (Hlen c Hc). unfold only. destruct (label_eqb c0 c); lia. }
    assert (W : within len (only c0) (concat gr)) by (intros c Hc; apply W0; auto).
    destruct (H _ (inb_gindex len _ gl W0)) as (y & (Wy & Sy & Gy) & (_ & Sy' & Gy')).
    assert (Sg : gshape len gr = gshape len gr') by congruence.
    destruct (Gy _ W) as (vs & v & Ev & Rv & Yv).
    destruct (hot_at a b gl gr len Nl Hi (only c0) W0 (only c0) W (fun c _ => eq_refl)) as (k & m & E & Ek).
    assert (Evs : vs = repeat a k ++ b :: repeat a m).
    { rewrite E in Ev. clear -Ev. revert Ev. generalize (repeat a k ++ b :: repeat a m). induction vs as [|v vs IH]; intros [|w l] Ev; try discriminate; [reflexivity|]. cbn in Ev. inversion Ev. f_equal. auto. }
    subst vs.
    destruct (gindex_onto len gr' (gindex len (only c0) gr) Nr') as (ix1 & W1 & E1).
    { rewrite <- Sg. apply inb_gindex; exact W. }
    destruct (agree_dec gr' (only c0) ix1) as [X|X].
    - rewrite <- E1. symmetry. apply gindex_same. intros c Hc. symmetry. apply X. exact Hc.
    - exfalso. destruct (Gy' _ W1) as (vs' & v' & Ev' & Rv' & Yv').
      rewrite (cold_at a b gl gr' len Nl Hi' (only c0) W0 ix1 W1 X) in Ev'.
      assert (Evs : vs' = repeat a (prodn (map len (missing gl gr')))).
      { clear -Ev'. revert Ev'. generalize (repeat a (prodn (map len (missing gl gr')))). induction vs' as [|w vs' IH]; intros [|w' l] Ev; try discriminate; [reflexivity|]. cbn in Ev. inversion Ev. f_equal. auto. }
      subst vs'. rewrite E1, Yv in Yv'. inversion Yv'; subst v'.
      assert (P : prodn (gshape len gr) <> 0).
      { intros Z. pose proof (inb_gindex len _ gr W) as I. apply ravel_lt in I. lia. }
      assert (En : prodn (map len (missing gl gr')) = n).
      { pose proof (prod_missing gr Nr Hi) as P1. pose proof (prod_missing gr' Nr' Hi') as P2. rewrite <- Sg in P2. nia. }
      rewrite En in Rv'. exact (Hred k m v v Ek Rv' Rv eq_refl).
  Qed.
End Apart.
