(** * Joined axes are a normal form *)
From Coq Require Import Permutation Sorted.
From Verif Require Import Py Tensor ListFacts TensorFacts SpecSem StepFacts ReduceFacts SpecOptimize SpecDistinct DistinctFacts Optimize OptFacts OptFacts2 NormalFacts NormalFacts2 NormalFacts3 StrideFacts2.

Lemma prod_two l : Forall (fun d => 2 <= d) l -> 1 <= prodn l.
Proof. induction 1 as [|d l Hd _ IH]; [cbn; lia|]. change (prodn (d :: l)) with (d * prodn l). nia. Qed.

Section Two.
  Context {A : Type} (a b : A) (red : list A -> result A) (lib : bool).
  Context (s r o s' r' o' : list nat) (Hs : sensible s r o) (Hs' : sensible s' r' o') (H2 : Forall (fun d => 2 <= d) s) (H2' : Forall (fun d => 2 <= d) s').
  Context (Hn : notices_in red a b (prodn (map (len s) (D s r)))) (Hn' : notices_in red a b (prodn (map (len s') (D s' r')))).
  Context (Ep : prodn s = prodn s') (E : forall p, p < prodn s -> flat_result lib red (spike a b (prodn s) p) s r o = flat_result lib red (spike a b (prodn s) p) s' r' o').

  Lemma parts t q z : sensible t q z -> Forall (fun d => 2 <= d) t -> prodn (map (len t) (KO t q z)) * prodn (map (len t) (D t q)) = prodn t /\ 1 <= prodn (map (len t) (KO t q z)) /\ 1 <= prodn (map (len t) (D t q)).
  Proof.
    intros H F. split.
    - rewrite <- prodn_app, <- map_app. transitivity (prodn (map (len t) (seq 0 (length t)))); [|rewrite len_seq; reflexivity]. apply prodn_perm', Permutation_map, Permutation_sym, (all_perm t q z H).
    - split; apply prod_two, Forall_map, Forall_forall; intros k Hk; apply len_ge; try exact F.
      + apply (KO_In t q z H) in Hk. apply Hk.
      + apply (Permutation_in k (D_perm t q z H)) in Hk. apply H, Hk.
  Qed.
  Lemma index_at t p : p < prodn t -> exists ix, within (len t) ix (seq 0 (length t)) /\ ravel t (map ix (seq 0 (length t))) = p.
  Proof.
    intros Hp. destruct (nth_error (indices t) p) as [idx|] eqn:En; [|apply nth_error_None in En; rewrite indices_length in En; lia].
    assert (Hi : inb t idx = true) by (apply indices_In; eapply nth_error_In, En). apply indices_nth_inv in En. pose proof (inb_length _ _ Hi) as Hl.
    exists (assign Nat.eqb (fun _ => 0) (seq 0 (length t)) idx). assert (Em : map (assign Nat.eqb (fun _ => 0) (seq 0 (length t)) idx) (seq 0 (length t)) = idx) by (apply (assign_map Nat.eqb Nat.eqb_eq); [apply seq_NoDup|rewrite seq_length; exact Hl]).
    split; [apply inb_within; rewrite Em, len_seq; exact Hi|rewrite Em; exact En].
  Qed.
  Lemma sizes_agree : prodn (map (len s) (KO s r o)) = prodn (map (len s') (KO s' r' o')) /\ prodn (map (len s) (D s r)) = prodn (map (len s') (D s' r')).
  Proof.
    destruct (parts s r o Hs H2) as (P1 & P2 & P3). destruct (parts s' r' o' Hs' H2') as (P1' & P2' & P3'). assert (H0 : 0 < prodn s) by (pose proof (prod_two s H2); lia).
    destruct (index_at s 0 H0) as (ix & W & R). destruct (index_at s' 0 ltac:(lia)) as (ix' & W' & R').
    destruct (spike_result s r o Hs a b red lib Hn H2 ix W) as (d & u & v & F & L & _). destruct (spike_result s' r' o' Hs' a b red lib Hn' H2' ix' W') as (d' & u' & v' & F' & L' & _).
    rewrite R in F. rewrite R', <- Ep in F'. rewrite (E 0 H0), F' in F. injection F as <-. assert (X : prodn (map (len s) (KO s r o)) = prodn (map (len s') (KO s' r' o'))) by congruence.
    split; [exact X|]. rewrite X in *. nia.
  Qed.
  Lemma jout_agree ix ix' : within (len s) ix (seq 0 (length s)) -> within (len s') ix' (seq 0 (length s')) ->
    ravel s (map ix (seq 0 (length s))) = ravel s' (map ix' (seq 0 (length s'))) -> jout s r o ix = jout s' r' o' ix'.
  Proof.
    intros W W' Er. destruct sizes_agree as [Q1 Q2]. assert (Hp : ravel s (map ix (seq 0 (length s))) < prodn s) by (apply ravel_lt; rewrite <- (len_seq s) at 1; apply inb_within, W).
    destruct (spike_result s r o Hs a b red lib Hn H2 ix W) as (d & u & v & F & L & Eu & Huv & Nv & Nu).
    destruct (spike_result s' r' o' Hs' a b red lib Hn' H2' ix' W') as (d' & u' & v' & F' & L' & Eu' & Huv' & Nv' & Nu').
    cbv zeta in F, F'. rewrite <- Er, <- Ep in F'. rewrite (E _ Hp), F' in F. injection F as <-. rewrite <- Q2, Eu in Eu'. injection Eu' as <-.
    destruct (Nat.eq_dec (jout s r o ix) (jout s' r' o' ix')) as [X|X]; [exact X|exfalso].
    assert (Lj : jout s r o ix < prodn (map (len s') (KO s' r' o'))) by (rewrite <- L'; apply nth_error_Some; congruence).
    destruct (posn_hit s' r' o' Hs' H2' (jout s r o ix)) as (jx & Wj & Ej & _); [rewrite Lp_total; exact Lj|].
    rewrite <- Ej in X, Nv. rewrite (Nu' jx) in Nv; [congruence| |exact X]. intros k Hk. apply Wj, (KO_incl s' r' o' Hs'), Hk.
  Qed.
  Lemma posn_le : forall j, j < total (Lp s r o) -> posn (Lp s' r' o') j <= posn (Lp s r o) j.
  Proof.
    intros j Hj. destruct (posn_hit s r o Hs H2 j Hj) as (ix & W & Ej & Er). 
    assert (Hp : ravel s (map ix (seq 0 (length s))) < prodn s') by (rewrite <- Ep; apply ravel_lt; rewrite <- (len_seq s) at 1; apply inb_within, W).
    destruct (index_at s' _ Hp) as (ix' & W' & Er').
    pose proof (posn_jout s' r' o' Hs' ix' W') as Hle. rewrite <- (jout_agree ix ix' W W' (eq_sym Er')), Ej, Er', Er in Hle. exact Hle.
  Qed.
End Two.

Section Unique.
  Context {A : Type} (a b : A) (red : list A -> result A) (lib : bool).
  Lemma normal_unique s r o s' r' o' : sensible s r o -> sensible s' r' o' -> Forall (fun d => 2 <= d) s -> Forall (fun d => 2 <= d) s' ->
    notices_in red a b (prodn (map (len s) (D s r))) -> notices_in red a b (prodn (map (len s') (D s' r'))) ->
    fully_joined s r o -> fully_joined s' r' o' -> StronglySorted lt r -> StronglySorted lt r' -> prodn s = prodn s' ->
    (forall p, p < prodn s -> flat_result lib red (spike a b (prodn s) p) s r o = flat_result lib red (spike a b (prodn s) p) s' r' o') ->
    s = s' /\ r = r' /\ o = o'.
  Proof.
    intros Hs Hs' H2 H2' Hn Hn' J J' Sr Sr' Ep E.
    assert (E' : forall p, p < prodn s' -> flat_result lib red (spike a b (prodn s') p) s' r' o' = flat_result lib red (spike a b (prodn s') p) s r o) by (intros p Hp; rewrite <- Ep in *; symmetry; apply E, Hp).
    destruct (sizes_agree a b red lib s r o s' r' o' Hs Hs' H2 H2' Hn Hn' Ep E) as [Q1 Q2].
    assert (Et : total (Lp s r o) = total (Lp s' r' o')) by (rewrite !Lp_total; exact Q1).
    assert (EL : Lp s r o = Lp s' r' o').
    { apply posn_unique.
      - exact (Lp_two s r o Hs H2).
      - exact (Lp_two s' r' o' Hs' H2').
      - exact (Lp_unmerged s r o Hs H2 J).
      - exact (Lp_unmerged s' r' o' Hs' H2' J').
      - exact Et.
      - intros j Hj. apply Nat.le_antisymm.
        + apply (posn_le a b red lib s' r' o' s r o Hs' Hs H2' H2 Hn' Hn (eq_sym Ep) E'). rewrite <- Et. exact Hj.
        + apply (posn_le a b red lib s r o s' r' o' Hs Hs' H2 H2' Hn Hn' Ep E). exact Hj. }
    assert (EX : marks s r = marks s' r').
    { apply (kept_unique _ _ 1).
      - lia.
      - exact (marks_two s r H2).
      - exact (marks_two s' r' H2').
      - exact (marks_apart s r o J).
      - exact (marks_apart s' r' o' J').
      - rewrite !marks_size. exact Ep.
      - intros p. rewrite (marks_Lp s r o Hs), (marks_Lp s' r' o' Hs'), EL. reflexivity. }
    unfold marks in EX. apply (f_equal (@rev _)) in EX. rewrite !rev_involutive in EX.
    assert (Es : s = s').
    { apply (f_equal (map snd)) in EX. rewrite !map_map in EX. cbn in EX. rewrite <- (len_seq s), <- (len_seq s'). exact EX. }
    subst s'. assert (Er : r = r').
    { apply sorted_unique.
      - clear - Sr. induction Sr as [|x l Hl IH F]; constructor; [exact IH|]. eapply Forall_impl; [|exact F]. cbn. lia.
      - exact Sr'.
      - apply NoDup_Permutation; [apply Hs|apply Hs'|]. intros k.
        assert (Hm : k < length s -> nat_mem k r = nat_mem k r').
        { intros Hk. assert (X := map_same_in _ _ _ k EX). specialize (X ltac:(apply in_seq; lia)). cbn in X. injection X. auto. }
        destruct Hs as (_ & _ & Hlt & _). destruct Hs' as (_ & _ & Hlt' & _).
        split; intros Hk; apply nat_mem_In; [rewrite <- Hm by (apply Hlt, Hk)|rewrite Hm by (apply Hlt', Hk)]; apply nat_mem_In, Hk. }
    subst r'. split; [reflexivity|]. split; [reflexivity|].
    assert (EK : KO s r o = KO s r o').
    { unfold Lp, axes_of in EL. assert (I1 := KO_incl s r o Hs). assert (I2 := KO_incl s r o' Hs').
      rewrite <- (rev_involutive (KO s r o)), <- (rev_involutive (KO s r o')). f_equal.
      assert (G : forall l l', incl l (seq 0 (length s)) -> incl l' (seq 0 (length s)) -> map (fun k => (len s k, st s k)) l = map (fun k => (len s k, st s k)) l' -> l = l').
      { induction l as [|x l IH]; intros [|y l'] X Y Z; try discriminate; [reflexivity|]. injection Z as _ Z1 Z2. f_equal.
        - apply (st_inj s H2); [| |exact Z1]; [specialize (X x (or_introl eq_refl)); apply in_seq in X; lia|specialize (Y y (or_introl eq_refl)); apply in_seq in Y; lia].
        - apply IH; [intros k Hk; apply X; right; exact Hk|intros k Hk; apply Y; right; exact Hk|exact Z2]. }
      apply G; [intros k Hk; apply I1, in_rev; exact Hk|intros k Hk; apply I2, in_rev; exact Hk|exact EL]. }
    unfold KO in EK. assert (B1 : forall p, In p o -> p < length (K s r)) by (intros p Hp; apply (Permutation_in p (o_perm s r o Hs)), in_seq in Hp; lia).
    assert (B2 : forall p, In p o' -> p < length (K s r)) by (intros p Hp; apply (Permutation_in p (o_perm s r o' Hs')), in_seq in Hp; lia).
    pose proof (K_NoDup s r) as NK. clear - EK B1 B2 NK. revert o' EK B2. induction o as [|p l IH]; intros [|p' l'] EK B2; try discriminate; [reflexivity|].
    cbn [map] in EK. injection EK as E1 E2. f_equal.
    - apply (proj1 (NoDup_nth (K s r) 0) NK); [apply B1; left; reflexivity|apply B2; left; reflexivity|exact E1].
    - apply IH; [intros q Hq; apply B1; right; exact Hq|exact E2|intros q Hq; apply B2; right; exact Hq].
  Qed.
End Unique.

(** ** the function keeps lengths of at least 2, and sorts the reduced axes *)
Lemma join_axis_two s k s' : Forall (fun d => 2 <= d) s -> join_axis s k = Ok s' -> Forall (fun d => 2 <= d) s'.
Proof.
  intros F H. unfold join_axis in H. apply bind_Ok in H as [rl [E1 H]]. apply bind_Ok in H as [d [E2 H]].
  apply list_get_Ok, nth_error_In in E1. rewrite Forall_forall in F. assert (R1 := F _ E1). apply list_get_Ok, nth_error_In in E2.
  assert (F' : forall x, In x (firstn k s ++ skipn (k + 1) s) -> 2 <= x).
  { intros x Hx. apply F. apply in_app_or in Hx as [Hx|Hx]; [rewrite <- (firstn_skipn k s)|rewrite <- (firstn_skipn (k + 1) s)]; apply in_or_app; auto. }
  assert (R2 := F' _ E2). apply Forall_forall. intros x Hx. apply In_nth_error in Hx as [j Hx]. pose proof (list_upd_nth _ _ _ _ j H) as G. rewrite Hx in G.
  destruct (j =? k - 1); [injection G as ->; nia|]. symmetry in G. apply nth_error_In in G. apply F', G.
Qed.

Definition shape_two (st : list nat * list nat) : Prop := Forall (fun d => 2 <= d) (fst st).
Lemma optimize_two {F} s r o (f : F) s' r' o' : Forall (fun d => 2 <= d) s -> optimize_transformation s r o f = Ok (s', r', o', f) -> Forall (fun d => 2 <= d) s' /\ (r = [] -> r' = []).
Proof.
  intros H E. unfold optimize_transformation in E. apply bind_Ok in E as [u [_ E]]. apply bind_Ok in E as [[s1 r1] [E1 E]]. apply bind_Ok in E as [m [_ E]].
  apply bind_Ok in E as [[[[s2 r2] o2] m2] [E2 E]]. injection E as <- <- <-.
  assert (F1 : Forall (fun d => 2 <= d) s1 /\ (r = [] -> r1 = [])).
  { refine (foldM_inv (fun st => Forall (fun d => 2 <= d) (fst st) /\ (r = [] -> snd st = [])) join_reduced _ _ (s, sort_asc r) (s1, r1) _ E1).
    - intros [t q] i [t' q'] [P Q] G. unfold join_reduced in G. apply bind_Ok in G as [a [Ga G]]. apply bind_Ok in G as [b [_ G]]. cbn [fst snd] in *. destruct (a + 1 =? b).
      + apply bind_Ok in G as [t1 [G1 G]]. injection G as <- <-. split; [eapply join_axis_two; eauto|]. intros Z. rewrite (Q Z) in Ga. destruct i; discriminate.
      + injection G as <- <-. split; assumption.
    - split; [exact H|]. intros ->. reflexivity. }
  refine (foldM_inv (fun st => Forall (fun d => 2 <= d) (fst (fst (fst st))) /\ (r = [] -> snd (fst (fst st)) = [])) join_kept _ _ (s1, r1, o, m) (s2, r2, o2, m2) F1 E2).
  intros [[[t q] z] y] i [[[t' q'] z'] y'] [P Q] G. unfold join_kept in G. apply bind_Ok in G as [a [_ G]]. cbn [fst snd] in *. destruct a as [fa|]; [|injection G as <- <- <- <-; auto].
  apply bind_Ok in G as [b [_ G]]. destruct b as [fb|]; [|injection G as <- <- <- <-; auto]. destruct (fa + 1 =? fb); [|injection G as <- <- <- <-; auto].
  apply bind_Ok in G as [t1 [G1 G]]. apply bind_Ok in G as [y1 [_ G]]. injection G as <- <- <- <-. split; [eapply join_axis_two; eauto|]. intros Z. rewrite (Q Z). reflexivity.
Qed.
Lemma optimize_sorted {F} s r o (f : F) s' r' o' : sensible s r o -> optimize_transformation s r o f = Ok (s', r', o', f) -> StronglySorted lt r'.
Proof.
  intros (Hl & Hr & Hlt & Ho) E'. set (len := fun k => nth k s 0). set (B := first_blocks (length s) r).
  assert (Pr : Permutation r (pos 0 B)).
  { apply NoDup_Permutation; [exact Hr|apply pos_NoDup|]. intros a. unfold B. rewrite first_pos. split; [intros H; split; [apply Hlt, H|exact H]|tauto]. }
  assert (LB : length B = length s) by (unfold B, first_blocks; rewrite map_length, seq_length; reflexivity).
  assert (Hc : length o = cnt B) by (assert (X := pos_count B); rewrite <- (Permutation_length Pr) in X; lia).
  rewrite Hc in Ho. assert (Es : gshape len (gall B) = s) by apply first_shape.
  destruct (optimize_blocks len B r o f Pr Ho) as (B' & o1 & E & _). rewrite Es, E' in E. injection E as _ -> _. apply pos_sorted.
Qed.

(** ** the function decides whether two transformations do the same *)
Lemma notices_notices_in {A} (red : list A -> result A) a b n : notices red a b -> notices_in red a b n.
Proof. intros [_ H] k m <-. apply H. Qed.
Lemma optimize_decides_in {A} (a b : A) (red : list A -> result A) lib s r o s' r' o' : sensible s r o -> sensible s' r' o' -> Forall (fun d => 2 <= d) s -> Forall (fun d => 2 <= d) s' ->
  (notices red a b \/ r = [] /\ r' = [] /\ notices_in red a b 1) ->
  (optimize_transformation s r o tt = optimize_transformation s' r' o' tt <->
   prodn s = prodn s' /\ forall x, wf x -> prodn (shp x) = prodn s -> flat_result lib red x s r o = flat_result lib red x s' r' o').
Proof.
  intros Hs Hs' H2 H2' Hn. destruct (optimize_correct s r o tt Hs) as (t & q & z & E & S & P & J & Fl & _). destruct (optimize_correct s' r' o' tt Hs') as (t' & q' & z' & E' & S' & P' & J' & Fl' & _).
  rewrite E, E'. split.
  - intros X. injection X as <- <- <-. split; [congruence|]. intros x Hw _. rewrite <- (Fl A lib red x Hw), <- (Fl' A lib red x Hw). reflexivity.
  - intros [Q X]. destruct (optimize_two _ _ _ _ _ _ _ H2 E) as [T R]. destruct (optimize_two _ _ _ _ _ _ _ H2' E') as [T' R'].
    assert (N : notices_in red a b (prodn (map (len t) (D t q))) /\ notices_in red a b (prodn (map (len t') (D t' q')))).
    { destruct Hn as [Hn|(E1 & E2 & Hn)]; [split; apply notices_notices_in, Hn|]. rewrite (R E1), (R' E2).
      assert (G : forall v, D v [] = []) by (intros v; unfold D; induction (seq 0 (length v)) as [|k l IH]; [reflexivity|exact IH]). rewrite !G. split; exact Hn. }
    destruct (normal_unique a b red lib t q z t' q' z') as (-> & -> & ->); try assumption; try reflexivity; try apply N.
    + exact (optimize_sorted _ _ _ _ _ _ _ Hs E).
    + exact (optimize_sorted _ _ _ _ _ _ _ Hs' E').
    + congruence.
    + intros p Hp. assert (W : wf (spike a b (prodn t) p)) by apply spike_wf. rewrite (Fl A lib red _ W), (Fl' A lib red _ W). apply X; [exact W|]. unfold spike; cbn [shp]. rewrite P. change (prodn [prodn s]) with (prodn s * 1). lia.
Qed.
Lemma optimize_decides {A} (a b : A) (red : list A -> result A) lib s r o s' r' o' : sensible s r o -> sensible s' r' o' -> Forall (fun d => 2 <= d) s -> Forall (fun d => 2 <= d) s' -> notices red a b ->
  (optimize_transformation s r o tt = optimize_transformation s' r' o' tt <->
   prodn s = prodn s' /\ forall x, wf x -> prodn (shp x) = prodn s -> flat_result lib red x s r o = flat_result lib red x s' r' o').
Proof. intros Hs Hs' H2 H2' Hn. apply (optimize_decides_in a b); auto. Qed.
Lemma optimize_decides_order {A} (a b : A) (red : list A -> result A) lib s o s' o' : sensible s [] o -> sensible s' [] o' -> Forall (fun d => 2 <= d) s -> Forall (fun d => 2 <= d) s' -> a <> b -> (forall x, red [x] = Ok x) ->
  (optimize_transformation s [] o tt = optimize_transformation s' [] o' tt <->
   prodn s = prodn s' /\ forall x, wf x -> prodn (shp x) = prodn s -> flat_result lib red x s [] o = flat_result lib red x s' [] o').
Proof.
  intros Hs Hs' H2 H2' Hab Hr. apply (optimize_decides_in a b); auto. right. split; [reflexivity|]. split; [reflexivity|]. intros k m E. assert (k = 0) as -> by lia. assert (m = 0) as -> by lia.
  exists a, b. cbn [repeat app]. rewrite !Hr. auto.
Qed.
(** two joined forms that do the same are the same *)
Lemma joined_unique {A} (a b : A) (red : list A -> result A) lib s r o s' r' o' : sensible s r o -> sensible s' r' o' -> Forall (fun d => 2 <= d) s -> Forall (fun d => 2 <= d) s' -> notices red a b ->
  fully_joined s r o -> fully_joined s' r' o' -> StronglySorted lt r -> StronglySorted lt r' -> prodn s = prodn s' ->
  (forall x, wf x -> prodn (shp x) = prodn s -> flat_result lib red x s r o = flat_result lib red x s' r' o') -> s = s' /\ r = r' /\ o = o'.
Proof.
  intros Hs Hs' H2 H2' Hn J J' Sr Sr' Ep X. apply (normal_unique a b red lib); try assumption; try (apply notices_notices_in, Hn).
  intros p Hp. apply X; [apply spike_wf|]. unfold spike; cbn [shp]. change (prodn [prodn s]) with (prodn s * 1). lia.
Qed.
Lemma join_axis_shorter s k s' : join_axis s k = Ok s' -> length s' <= length s.
Proof.
  intros H. unfold join_axis in H. apply bind_Ok in H as [rl [E1 H]]. apply bind_Ok in H as [d [E2 H]]. apply list_upd_length in H. rewrite H, app_length, firstn_length, skipn_length. lia.
Qed.
Lemma optimize_shorter {F} s r o (f : F) s' r' o' : optimize_transformation s r o f = Ok (s', r', o', f) -> length s' <= length s.
Proof.
  intros E. unfold optimize_transformation in E. apply bind_Ok in E as [u [_ E]]. apply bind_Ok in E as [[s1 r1] [E1 E]]. apply bind_Ok in E as [m [_ E]].
  apply bind_Ok in E as [[[[s2 r2] o2] m2] [E2 E]]. injection E as <- <- <-.
  assert (F1 : length s1 <= length s).
  { refine (foldM_inv (fun st => length (fst st) <= length s) join_reduced _ _ (s, sort_asc r) (s1, r1) _ E1); [|cbn; lia].
    intros [t q] i [t' q'] P G. unfold join_reduced in G. apply bind_Ok in G as [a [Ga G]]. apply bind_Ok in G as [b [_ G]]. cbn [fst snd] in *. destruct (a + 1 =? b).
    + apply bind_Ok in G as [t1 [G1 G]]. injection G as <- <-. apply join_axis_shorter in G1. lia.
    + injection G as <- <-. exact P. }
  refine (foldM_inv (fun st => length (fst (fst (fst st))) <= length s) join_kept _ _ (s1, r1, o, m) (s2, r2, o2, m2) F1 E2).
  intros [[[t q] z] y] i [[[t' q'] z'] y'] P G. unfold join_kept in G. apply bind_Ok in G as [a [_ G]]. cbn [fst snd] in *. destruct a as [fa|]; [|injection G as <- <- <- <-; exact P].
  apply bind_Ok in G as [b [_ G]]. destruct b as [fb|]; [|injection G as <- <- <- <-; exact P]. destruct (fa + 1 =? fb); [|injection G as <- <- <- <-; exact P].
  apply bind_Ok in G as [t1 [G1 G]]. apply bind_Ok in G as [y1 [_ G]]. injection G as <- <- <- <-. apply join_axis_shorter in G1. lia.
Qed.
(** no transformation that does the same has fewer axes *)
Lemma optimize_shortest {A} (a b : A) (red : list A -> result A) lib s r o s' r' o' t q z : sensible s r o -> sensible s' r' o' -> Forall (fun d => 2 <= d) s -> Forall (fun d => 2 <= d) s' -> notices red a b ->
  prodn s = prodn s' -> (forall x, wf x -> prodn (shp x) = prodn s -> flat_result lib red x s r o = flat_result lib red x s' r' o') ->
  optimize_transformation s r o tt = Ok (t, q, z, tt) -> length t <= length s'.
Proof.
  intros Hs Hs' H2 H2' Hn Ep X E. apply (optimize_shorter s' r' o' tt t q z). rewrite <- E. symmetry. apply (optimize_decides a b red lib); auto.
Qed.
