(** * functools.lru_cache remembers the last different keys *)
From Verif Require Import Py ListFacts Tensor Parsing Recipe Ops Backends Api Packing Einsum Cache CacheFacts Work SpecWork.

Section Lru.
  Context {K : Type} (eqb : K -> K -> bool) (Heq : forall a b, eqb a b = true <-> a = b).
  Context (m : nat) (ok : K -> bool).

  Lemma eqb_same a : eqb a a = true.
  Proof. apply Heq. reflexivity. Qed.
  Lemma eqb_other a b : a <> b -> eqb a b = false.
  Proof. intros H. apply not_true_iff_false. intros E. apply H, Heq, E. Qed.
  Lemma key_dec (a b : K) : {a = b} + {a <> b}.
  Proof. destruct (eqb a b) eqn:E; [left; apply Heq, E|right; intros H; apply Heq in H; congruence]. Qed.

  Definition without (k : K) (l : list K) : list K := filter (fun k' => negb (eqb k k')) l.
  Lemma in_without k x l : In x (without k l) <-> In x l /\ x <> k.
  Proof.
    unfold without. rewrite filter_In. split.
    - intros [H1 H2]. split; [exact H1|]. intros ->. rewrite eqb_same in H2. discriminate.
    - intros [H1 H2]. split; [exact H1|]. rewrite eqb_other by congruence. reflexivity.
  Qed.
  Lemma without_none k l : ~ In k l -> without k l = l.
  Proof.
    induction l as [|x l IH]; intros H; [reflexivity|]. cbn. rewrite eqb_other by (intros ->; apply H; left; reflexivity). cbn. f_equal. apply IH.
    intros Hi. apply H. right. exact Hi.
  Qed.
  Lemma without_app k l l' : without k (l ++ l') = without k l ++ without k l'.
  Proof. apply filter_app. Qed.
  Lemma without_head k l : without k (k :: l) = without k l.
  Proof. cbn. rewrite eqb_same. reflexivity. Qed.
  Lemma without_NoDup k l : NoDup l -> NoDup (without k l).
  Proof. apply NoDup_filter. Qed.

  (** the keys in order of their last use *)
  Fixpoint recent (ks : list K) : list K :=
    match ks with [] => [] | k :: ks => if ok k then k :: without k (recent ks) else recent ks end.
  Lemma recent_NoDup ks : NoDup (recent ks).
  Proof.
    induction ks as [|k ks IH]; [constructor|]. cbn. destruct (ok k); [|exact IH]. constructor; [|apply without_NoDup, IH].
    intros H. apply in_without in H as [_ H]. apply H. reflexivity.
  Qed.
  Lemma in_recent k ks : In k (recent ks) <-> In k ks /\ ok k = true.
  Proof.
    induction ks as [|x ks IH]; cbn; [tauto|]. destruct (ok x) eqn:E.
    - cbn. rewrite in_without, IH. destruct (key_dec x k) as [->|Hn]; [tauto|]. assert (k <> x) by congruence. tauto.
    - rewrite IH. split; [tauto|]. intros [[->|H] H']; [congruence|tauto].
  Qed.

  (** ** the stored keys *)
  Lemma take_none {V} k (c : list (K * V)) : take_key eqb k c = None <-> ~ In k (map fst c).
  Proof.
    induction c as [|[k' v] c IH]; cbn; [tauto|]. destruct (eqb k k') eqn:E.
    - apply Heq in E. subst. split; [discriminate|]. intros H. exfalso. apply H. left. reflexivity.
    - destruct (take_key eqb k c) as [[e rest]|].
      + split; [discriminate|]. intros H. exfalso. assert (X : ~ In k (map fst c)) by tauto. apply IH in X. discriminate.
      + split; [|reflexivity]. intros _ [->|H]; [rewrite eqb_same in E; discriminate|]. exact (proj1 IH eq_refl H).
  Qed.
  Lemma take_some {V} k (c : list (K * V)) e rest : NoDup (map fst c) -> take_key eqb k c = Some (e, rest) ->
    fst e = k /\ map fst rest = without k (map fst c).
  Proof.
    revert e rest. induction c as [|[k' v] c IH]; intros e rest Hn H; cbn in H; [discriminate|]. inversion_clear Hn as [|? ? H1 H2]. cbn [map fst].
    destruct (eqb k k') eqn:E.
    - apply Heq in E. subst k'. injection H as <- <-. split; [reflexivity|]. rewrite without_head. symmetry. apply without_none, H1.
    - destruct (take_key eqb k c) as [[e' rest']|]; [|discriminate]. injection H as <- <-. destruct (IH _ _ H2 eq_refl) as [G1 G2].
      split; [exact G1|]. cbn. rewrite E. cbn. f_equal. exact G2.
  Qed.

  Lemma lru_recent {V} compute k (c : list (K * V)) ks : (forall e, compute tt = Err e -> ok k = false) -> (forall v, compute tt = Ok v -> ok k = true) ->
    map fst c = firstn m (recent ks) -> map fst (snd (lru eqb m compute k c)) = firstn m (recent (k :: ks)).
  Proof.
    intros He Hv Hc. pose proof (recent_NoDup ks) as Hn.
    assert (Hnc : NoDup (map fst c)) by (rewrite Hc; rewrite <- (firstn_skipn m (recent ks)) in Hn; apply NoDup_app_iff in Hn; tauto).
    unfold lru. destruct (take_key eqb k c) as [[e rest]|] eqn:Et.
    - destruct (take_some _ _ _ _ Hnc Et) as [E1 E2]. cbn [snd map]. rewrite E1, E2, Hc.
      assert (Hin : In k (firstn m (recent ks))).
      { rewrite <- Hc. destruct (in_dec key_dec k (map fst c)) as [Hi|Hi]; [exact Hi|]. apply take_none in Hi. congruence. }
      assert (Hok : ok k = true) by (apply In_firstn', in_recent in Hin; tauto).
      cbn [recent]. rewrite Hok. apply in_split in Hin as (a & b & Ea).
      assert (Hm : length a < m).
      { apply (f_equal (@length K)) in Ea. rewrite firstn_length, app_length in Ea. cbn [length] in Ea. lia. }
      destruct m as [|m']; [lia|]. change (firstn (S m') (k :: without k (recent ks))) with (k :: firstn m' (without k (recent ks))).
      set (R := recent ks) in *. f_equal. rewrite <- (firstn_skipn (S m') R) in Hn. rewrite <- (firstn_skipn (S m') R) at 2. rewrite Ea in *.
      rewrite !without_app, without_head. pose proof Hn as Hn1. apply NoDup_app_iff in Hn1 as (Hn1 & _ & Hd). apply NoDup_remove in Hn1 as [_ Hk].
      assert (Hka : ~ In k a) by (intros X; apply Hk, in_or_app; auto). assert (Hkb : ~ In k b) by (intros X; apply Hk, in_or_app; auto).
      assert (Hks : ~ In k (skipn (S m') R)) by (apply Hd, in_or_app; right; left; reflexivity).
      rewrite !without_none by assumption.
      destruct (le_lt_dec (length R) (S m')) as [Hl|Hl].
      + rewrite (skipn_all2 R) by lia. rewrite app_nil_r. symmetry. apply firstn_all2.
        apply (f_equal (@length K)) in Ea. rewrite firstn_length, app_length in Ea. cbn [length] in Ea. rewrite app_length. lia.
      + assert (El : length (a ++ b) = m') by (apply (f_equal (@length K)) in Ea; rewrite firstn_length, app_length in Ea; cbn [length] in Ea; rewrite app_length; lia).
        rewrite <- El. rewrite firstn_app, firstn_all, Nat.sub_diag. cbn. rewrite app_nil_r. reflexivity.
    - apply take_none in Et. rewrite Hc in Et. cbn [recent]. destruct (compute tt) as [v|e] eqn:Ec.
      + rewrite (Hv v eq_refl). cbn [snd]. rewrite <- firstn_map. cbn [map fst]. rewrite Hc. destruct m as [|m']; [reflexivity|].
        set (R := recent ks) in *. change (k :: firstn m' (firstn (S m') R) = k :: firstn m' (without k R)). f_equal. rewrite firstn_firstn. replace (Nat.min m' (S m')) with m' by lia.
        rewrite <- (firstn_skipn (S m') R) at 2. rewrite without_app, without_none by exact Et.
        rewrite firstn_app, firstn_firstn. replace (Nat.min m' (S m')) with m' by lia.
        replace (firstn (m' - length (firstn (S m') R)) (without k (skipn (S m') R))) with (@nil K); [rewrite app_nil_r; reflexivity|].
        rewrite firstn_length. destruct (le_lt_dec (length R) (S m')) as [Hl|Hl].
        * rewrite (skipn_all2 R) by lia. cbn. symmetry. apply firstn_nil.
        * replace (m' - Nat.min (S m') (length R)) with 0 by lia. reflexivity.
      + rewrite (He e eq_refl). cbn [snd]. exact Hc.
  Qed.

  (** ** the same, in the words of the specification *)
  Lemma recent_app later ks : exists rest, recent (later ++ ks) = recent later ++ rest /\ forall x, In x rest -> In x (recent ks).
  Proof.
    induction later as [|k later IH]; [exists (recent ks); split; [reflexivity|auto]|]. destruct IH as (rest & E & H). cbn. destruct (ok k).
    - exists (without k rest). rewrite E, without_app. split; [reflexivity|]. intros x Hx. apply in_without in Hx as [Hx _]. auto.
    - exists rest. auto.
  Qed.
  Lemma recent_split later k earlier : ok k = true -> ~ In k later -> exists rest, recent (later ++ k :: earlier) = recent later ++ k :: rest.
  Proof.
    intros Hk. induction later as [|x later IH]; intros Hn; cbn.
    - rewrite Hk. eauto.
    - destruct IH as [rest E]; [intros H; apply Hn; right; exact H|]. rewrite E. destruct (ok x); [|eauto].
      rewrite without_app. cbn [without filter app]. rewrite eqb_other by (intros ->; apply Hn; left; reflexivity). cbn. eauto.
  Qed.
  Lemma last_use (k : K) ks : In k ks -> exists later earlier, ks = later ++ k :: earlier /\ ~ In k later.
  Proof.
    induction ks as [|x ks IH]; [intros []|]. intros H. destruct (key_dec x k) as [->|Hx]; [exists [], ks; split; [reflexivity|intros []]|].
    destruct H as [H|H]; [contradiction|]. destruct (IH H) as (later & earlier & -> & Hn). exists (x :: later), earlier. split; [reflexivity|].
    intros [E|E]; contradiction.
  Qed.
  Lemma in_firstn_app (k : K) a b : ~ In k a -> In k (firstn m (a ++ k :: b)) <-> length a < m.
  Proof.
    intros Ha. rewrite firstn_app. split.
    - intros H. apply in_app_or in H as [H|H]; [apply In_firstn' in H; contradiction|]. destruct (le_lt_dec m (length a)) as [Hl|Hl]; [|exact Hl].
      replace (m - length a) with 0 in H by lia. destruct H.
    - intros H. apply in_or_app. right. destruct (m - length a) as [|n] eqn:E; [lia|]. left. reflexivity.
  Qed.
  Lemma fewer_recent (P : K -> Prop) later : (forall k, P k <-> ok k = true) -> fewer_than P m later <-> length (recent later) < m.
  Proof.
    intros HP. split.
    - intros H. apply H; [apply recent_NoDup|]. intros k Hk. apply in_recent in Hk as [H1 H2]. split; [exact H1|]. apply HP, H2.
    - intros H l Hn Hl. apply Nat.le_lt_trans with (length (recent later)); [|exact H]. apply NoDup_incl_length; [exact Hn|].
      intros k Hk. destruct (Hl k Hk) as [H1 H2]. apply in_recent. split; [exact H1|]. apply HP, H2.
  Qed.
  Lemma remembered_recent (P : K -> Prop) ks k : (forall k, P k <-> ok k = true) -> remembered P m ks k <-> In k (firstn m (recent ks)).
  Proof.
    intros HP. unfold remembered. split.
    - intros (Hk & later & earlier & -> & Hn & Hf). apply HP in Hk. destruct (recent_split later k earlier Hk Hn) as [rest ->].
      apply in_firstn_app; [intros X; apply in_recent in X; tauto|]. apply (fewer_recent P); assumption.
    - intros H. pose proof H as H0. apply In_firstn', in_recent in H0 as [Hi Hk]. split; [apply HP, Hk|].
      destruct (last_use k ks Hi) as (later & earlier & -> & Hn). exists later, earlier. split; [reflexivity|]. split; [exact Hn|].
      destruct (recent_split later k earlier Hk Hn) as [rest E]. rewrite E in H. apply in_firstn_app in H; [|intros X; apply in_recent in X; tauto].
      apply (fewer_recent P); assumption.
  Qed.
End Lru.
