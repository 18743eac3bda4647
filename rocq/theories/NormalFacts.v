(** * Joined axes are a normal form: positions and strides *)
From Coq Require Import Permutation Sorted.
From Verif Require Import Py Tensor ListFacts TensorFacts SpecSem StepFacts.

(** ** positions in the input, from positions in the result
    [L]: the kept axes as (length, stride in the input), the fastest first *)
Fixpoint posn (L : list (nat * nat)) (j : nat) : nat :=
  match L with [] => 0 | (d, st) :: L' => (j mod d) * st + posn L' (j / d) end.
Definition total (L : list (nat * nat)) : nat := prodn (map fst L).
Fixpoint unmerged (L : list (nat * nat)) : Prop :=
  match L with
  | (d1, st1) :: ((d2, st2) :: _) as L' => st2 <> d1 * st1 /\ unmerged L'
  | _ => True
  end.

Lemma total_pos L : Forall (fun p => 2 <= fst p) L -> 1 <= total L.
Proof. induction 1 as [|[d st] L H _ IH]; [cbn; lia|]. change (total ((d, st) :: L)) with (d * total L). cbn in H. nia. Qed.
Lemma total_one L : Forall (fun p => 2 <= fst p) L -> total L = 1 -> L = [].
Proof. intros F H. destruct F as [|[d st] L Hd F]; [reflexivity|]. apply total_pos in F. change (total ((d, st) :: L)) with (d * total L) in H. cbn in Hd. nia. Qed.
Lemma posn_zero L : posn L 0 = 0.
Proof. induction L as [|[d st] L IH]; [reflexivity|]. cbn [posn]. destruct d; [cbn; rewrite IH; reflexivity|]. rewrite Nat.mod_0_l, Nat.div_0_l by lia. rewrite IH. reflexivity. Qed.
Lemma posn_small d st L j : j < d -> posn ((d, st) :: L) j = j * st.
Proof. intros H. cbn [posn]. rewrite Nat.mod_small, Nat.div_small, posn_zero by exact H. lia. Qed.
Lemma posn_up d st L j : 0 < d -> posn ((d, st) :: L) (d * j) = posn L j.
Proof. intros H. cbn [posn]. rewrite (Nat.mul_comm d j), Nat.mod_mul, Nat.div_mul by lia. reflexivity. Qed.

Lemma posn_unique : forall L L', Forall (fun p => 2 <= fst p) L -> Forall (fun p => 2 <= fst p) L' -> unmerged L -> unmerged L' -> total L = total L' ->
  (forall j, j < total L -> posn L j = posn L' j) -> L = L'.
Proof.
  induction L as [|[d st] L IH]; intros L' F F' U U' Et E; [symmetry; apply total_one; [exact F'|rewrite <- Et; reflexivity]|].
  destruct L' as [|[d' st'] L']; [apply total_one; [exact F|exact Et]|].
  pose proof (Forall_inv F) as Hd. pose proof (Forall_inv F') as Hd'. cbn in Hd, Hd'. pose proof (Forall_inv_tail F) as FT. pose proof (Forall_inv_tail F') as FT'.
  pose proof (total_pos _ FT) as P. pose proof (total_pos _ FT') as P'.
  assert (T : total ((d, st) :: L) = d * total L) by reflexivity. assert (T' : total ((d', st') :: L') = d' * total L') by reflexivity.
  assert (Es : st = st').
  { assert (H1 : 1 < total ((d, st) :: L)) by (rewrite T; nia). specialize (E 1 H1). rewrite !posn_small in E by lia. lia. }
  subst st'.
  assert (G : forall d d' L L', 2 <= d -> Forall (fun p => 2 <= fst p) L -> unmerged ((d, st) :: L) -> d < d' -> 1 <= total L' -> total ((d, st) :: L) = total ((d', st) :: L') ->
            (forall j, j < total ((d, st) :: L) -> posn ((d, st) :: L) j = posn ((d', st) :: L') j) -> False).
  { clear. intros d d' L L' Hd F U Hlt P Et E. assert (T : total ((d, st) :: L) = d * total L) by reflexivity. assert (T' : total ((d', st) :: L') = d' * total L') by reflexivity.
    destruct L as [|[d2 st2] L]; [change (total []) with 1 in T; nia|].
    assert (H1 : d < total ((d, st) :: (d2, st2) :: L)) by (rewrite Et, T'; nia). specialize (E d H1). rewrite (posn_small d' st L' d Hlt) in E.
    replace d with (d * 1) in E at 2 by lia. rewrite posn_up in E by lia. pose proof (Forall_inv F) as H2. cbn in H2. rewrite posn_small in E by lia. cbn in U. lia. }
  assert (Ed : d = d').
  { destruct (Nat.lt_trichotomy d d') as [H|[H|H]]; [exfalso|exact H|exfalso].
    - apply (G d d' L L'); auto.
    - apply (G d' d L' L); auto. intros j Hj. symmetry. apply E. rewrite Et. exact Hj. }
  subst d'. f_equal. apply IH; auto.
  - destruct L as [|[? ?] ?]; [exact I|]. cbn in U |- *. tauto.
  - destruct L' as [|[? ?] ?]; [exact I|]. cbn in U' |- *. tauto.
  - rewrite T, T' in Et. nia.
  - intros j Hj. assert (Hj' : d * j < total ((d, st) :: L)) by (rewrite T; nia). specialize (E _ Hj'). rewrite !posn_up in E by lia. exact E.
Qed.

(** ** the reduced axes, from the kept ones
    [X]: all axes as (reduced?, length), the last first *)
Fixpoint kept_of (cur : nat) (X : list (bool * nat)) : list (nat * nat) :=
  match X with [] => [] | (f, d) :: X' => (if f then [] else [(d, cur)]) ++ kept_of (d * cur) X' end.
Fixpoint apart (X : list (bool * nat)) : Prop :=
  match X with
  | (f1, _) :: ((f2, _) :: _) as X' => f1 && f2 = false /\ apart X'
  | _ => True
  end.
Definition size_of (X : list (bool * nat)) : nat := prodn (map snd X).

Lemma size_pos X : Forall (fun p => 2 <= snd p) X -> 1 <= size_of X.
Proof. induction 1 as [|[f d] X H _ IH]; [cbn; lia|]. change (size_of ((f, d) :: X)) with (d * size_of X). cbn in H. nia. Qed.
Lemma size_one X : Forall (fun p => 2 <= snd p) X -> size_of X = 1 -> X = [].
Proof. intros F H. destruct F as [|[f d] L Hd F]; [reflexivity|]. apply size_pos in F. change (size_of ((f, d) :: L)) with (d * size_of L) in H. cbn in Hd. nia. Qed.
Lemma kept_ge X : Forall (fun p => 2 <= snd p) X -> forall cur d st, In (d, st) (kept_of cur X) -> cur <= st.
Proof.
  induction 1 as [|[f e] X H F IH]; intros cur d st Hi; [contradiction|]. cbn in Hi, H. apply in_app_or in Hi as [Hi|Hi].
  - destruct f; [contradiction|]. destruct Hi as [Hi|[]]. injection Hi as <- <-. lia.
  - apply IH in Hi. nia.
Qed.
Lemma kept_unique : forall X X' cur, 1 <= cur -> Forall (fun p => 2 <= snd p) X -> Forall (fun p => 2 <= snd p) X' -> apart X -> apart X' -> size_of X = size_of X' ->
  (forall p, In p (kept_of cur X) <-> In p (kept_of cur X')) -> X = X'.
Proof.
  induction X as [|[f d] X IH]; intros X' cur Hc F F' P P' Es E; [symmetry; apply size_one; [exact F'|rewrite <- Es; reflexivity]|].
  destruct X' as [|[f' d'] X']; [apply size_one; [exact F|exact Es]|].
  pose proof (Forall_inv F) as Hd. pose proof (Forall_inv F') as Hd'. cbn in Hd, Hd'. pose proof (Forall_inv_tail F) as FT. pose proof (Forall_inv_tail F') as FT'.
  assert (S : size_of ((f, d) :: X) = d * size_of X) by reflexivity. assert (S' : size_of ((f', d') :: X') = d' * size_of X') by reflexivity.
  pose proof (size_pos _ FT) as Q. pose proof (size_pos _ FT') as Q'.
  assert (K : forall f f' d d' X X', 2 <= d -> 2 <= d' -> Forall (fun p => 2 <= snd p) X' -> (forall p, In p (kept_of cur ((f, d) :: X)) <-> In p (kept_of cur ((f', d') :: X'))) -> f = false -> f' = false /\ d' = d).
  { clear - Hc. intros f f' d d' X X' Hd Hd' F' E ->. assert (Hi : In (d, cur) (kept_of cur ((f', d') :: X'))) by (apply E; left; reflexivity).
    cbn in Hi. apply in_app_or in Hi as [Hi|Hi]; [|apply (kept_ge X' F') in Hi; nia]. destruct f'; [contradiction|]. destruct Hi as [Hi|[]]. injection Hi as ->. auto. }
  assert (C : (f', d') = (f, d)).
  { destruct f eqn:Ef, f' eqn:Ef'.
    - (* both reduced *)
      f_equal.
      assert (Hh : forall d X, apart ((true, d) :: X) -> match X with [] => True | (g, _) :: _ => g = false end) by (intros ? [|[[] ?] ?] H; cbn in H; [exact I|destruct H; discriminate|reflexivity]).
      apply Hh in P. apply Hh in P'. cbn [kept_of app] in E.
      destruct X as [|[g e] X], X' as [|[g' e'] X'].
      + unfold size_of in Es. cbn in Es. lia.
      + subst g'. exfalso. apply (E (e', d' * cur)). cbn. auto.
      + subst g. exfalso. apply (E (e, d * cur)). cbn. auto.
      + subst g g'. assert (H1 : In (e, d * cur) (kept_of (d' * cur) ((false, e') :: X'))) by (apply E; cbn; auto). assert (H2 : In (e', d' * cur) (kept_of (d * cur) ((false, e) :: X))) by (apply E; cbn; auto).
        apply (kept_ge _ FT') in H1. apply (kept_ge _ FT) in H2. nia.
    - destruct (K false true d' d X' X Hd' Hd FT (fun p => iff_sym (E p)) eq_refl). discriminate.
    - destruct (K false true d d' X X' Hd Hd' FT' E eq_refl). discriminate.
    - destruct (K false false d d' X X' Hd Hd' FT' E eq_refl) as [_ ->]. reflexivity. }
  injection C as -> ->. f_equal. apply (IH X' (d * cur)); auto.
  - nia.
  - destruct X as [|[? ?] ?]; [exact I|]. cbn in P |- *. tauto.
  - destruct X' as [|[? ?] ?]; [exact I|]. cbn in P' |- *. tauto.
  - rewrite S, S' in Es. nia.
  - intros [e st]. specialize (E (e, st)). cbn [kept_of] in E. rewrite !in_app_iff in E.
    assert (N : forall X, Forall (fun p => 2 <= snd p) X -> In (e, st) (kept_of (d * cur) X) -> ~ In (e, st) (if f then [] else [(d, cur)])).
    { intros Y FY H1 H2. apply (kept_ge Y FY) in H1. destruct f; [contradiction|]. destruct H2 as [H2|[]]. injection H2 as <- <-. nia. }
    split; intros H.
    + destruct (proj1 E (or_intror H)) as [H'|H']; [exfalso; eapply N; [| |exact H']; [exact FT|exact H]|exact H'].
    + destruct (proj2 E (or_intror H)) as [H'|H']; [exfalso; eapply N; [| |exact H']; [exact FT'|exact H]|exact H'].
Qed.
