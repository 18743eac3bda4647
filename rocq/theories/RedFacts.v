(** * Which reductions can be done one axis at a time, in any order, on copies

    Instances of the hypotheses [splits], [symmetric] and [idempotent_on_copies]
    (Api.v): sums and products, minimum and maximum, and the mean. *)
From Coq Require Import QArith Qcanon.
From Verif Require Import Py Tensor Parsing Recipe Ops Backends ListFacts SpecGrammar SpecPattern Api.
Close Scope Qc_scope.
Close Scope Q_scope.

(** a reduction with a starting value: sum, prod, any, all *)
Definition fold_red {A} (f : A -> A -> A) (u : A) (l : list A) : result A := Ok (fold_right f u l).
(** a reduction that does not accept an empty list: min, max *)
Definition fold1_red {A} (f : A -> A -> A) (l : list A) : result A :=
  match l with [] => Err BackendError | v :: l' => Ok (fold_left f l' v) end.
(** the mean, in exact arithmetic; the mean of nothing is the value [nothing]
    (an error, or not-a-number) *)
Definition sumQ (l : list Qc) : Qc := fold_right Qcplus 0%Qc l.
Definition countQ (n : nat) : Qc := Q2Qc (inject_Z (Z.of_nat n)).
Definition mean_red (l : list Qc) : result Qc :=
  match l with [] => Err BackendError | _ => Ok (sumQ l / countQ (length l))%Qc end.

Section Monoid.
  Context {A : Type} (f : A -> A -> A) (u : A).
  Context (assoc : forall a b c, f a (f b c) = f (f a b) c).

  Lemma fold_right_app_mon (Hu : forall a, f u a = a) l m : fold_right f u (l ++ m) = f (fold_right f u l) (fold_right f u m).
  Proof. induction l as [|a l IH]; simpl; auto. rewrite IH, assoc; auto. Qed.

  Lemma fold_red_splits : (forall a, f u a = a) -> splits (fold_red f u).
  Proof.
    intros Hu n xss _. unfold fold_red.
    assert (E : mapM (fun l => Ok (fold_right f u l)) xss = Ok (map (fold_right f u) xss)).
    { induction xss as [|xs xss IH]; simpl; auto. rewrite IH; auto. }
    rewrite E. cbn [bind]. f_equal. clear E. induction xss as [|xs xss IH]; simpl; auto.
    rewrite fold_right_app_mon, IH; auto.
  Qed.

  Lemma fold_red_symmetric : (forall a b, f a b = f b a) -> symmetric (fold_red f u).
  Proof.
    intros Hc vs vs' H. unfold fold_red. f_equal. induction H; simpl; try congruence; rewrite assoc, (Hc y x), <- assoc; auto.
  Qed.

  Lemma fold_red_copies : (forall a, f a a = a) -> (forall a, f a u = a) -> idempotent_on_copies (fold_red f u).
  Proof.
    intros Hi Hu v n Hn. unfold fold_red. f_equal. destruct n as [|n]; [congruence|]. clear Hn.
    induction n as [|n IH]; simpl in *; [apply Hu|]. rewrite IH; auto.
  Qed.

  Lemma fold_left_pull l v w : fold_left f l (f v w) = f v (fold_left f l w).
  Proof. revert w; induction l as [|a l IH]; intros w; simpl; auto. rewrite <- assoc; auto. Qed.

  Lemma fold1_red_splits : splits (fold1_red f).
  Proof.
    intros n xss Hn. destruct n as [|n].
    - destruct xss as [|xs xss]; [reflexivity|].
      assert (Ec : forall l, Forall (fun xs : list A => length xs = 0) l -> concat l = []).
      { intros l Hl. induction Hl as [|ys l Hy _ IH]; simpl; auto. destruct ys; [auto|discriminate]. }
      rewrite Ec by auto. inversion Hn; subst. destruct xs; [|discriminate]. reflexivity.
    - assert (E : exists hs, map (fun xs => match xs with [] => Err BackendError | v :: l' => Ok (fold_left f l' v) end) xss = map Ok hs
        /\ fold1_red f (concat xss) = fold1_red f hs /\ length hs = length xss).
      { induction Hn as [|xs xss Hx Hn IH]; [exists []; auto|]. destruct IH as [hs [E1 [E2 E3]]].
        destruct xs as [|v xs]; [discriminate|]. exists (fold_left f xs v :: hs). simpl. split; [congruence|]. split; [|congruence].
        f_equal. rewrite fold_left_app. destruct hs as [|h hs].
        - destruct xss; [|discriminate]. reflexivity.
        - unfold fold1_red in E2. destruct (concat xss) as [|c cs]; [discriminate|]. simpl.
          rewrite !fold_left_pull. injection E2 as E2. congruence. }
      destruct E as [hs [E1 [E2 _]]].
      assert (Em : mapM (fold1_red f) xss = Ok hs).
      { clear E2 Hn. revert hs E1. induction xss as [|xs xss IH]; intros [|h hs] E1; simpl in *; try discriminate; auto.
        injection E1 as Ea Eb. unfold fold1_red at 1. rewrite Ea. cbn [bind]. rewrite (IH hs); auto. }
      rewrite Em. exact E2.
  Qed.

  Lemma fold1_red_symmetric : (forall a b, f a b = f b a) -> symmetric (fold1_red f).
  Proof.
    intros Hc. assert (Hp : forall l m v, Permutation l m -> fold_left f l v = fold_left f m v).
    { intros l m v H. revert v. induction H; intros v; simpl; auto; [|congruence].
      rewrite <- !assoc, (Hc y x); auto. }
    intros vs vs' H. induction H; simpl; auto.
    - f_equal. apply Hp; auto.
    - f_equal. rewrite (Hc y x); auto.
    - congruence.
  Qed.

  Lemma fold1_red_copies : (forall a, f a a = a) -> idempotent_on_copies (fold1_red f).
  Proof.
    intros Hi v n Hn. destruct n as [|n]; [congruence|]. simpl. f_equal. clear Hn.
    induction n as [|n IH]; simpl; auto. rewrite Hi; auto.
  Qed.
End Monoid.

(** ** the mean *)
Lemma countQ_S n : countQ (S n) = (1 + countQ n)%Qc.
Proof.
  unfold countQ. apply Qc_is_canon. unfold Qcplus, Q2Qc. cbn [this]. rewrite !Qred_correct.
  unfold Qeq, Qplus, inject_Z. cbn [Qnum Qden]. lia.
Qed.
Lemma countQ_add n m : countQ (n + m) = (countQ n + countQ m)%Qc.
Proof.
  induction n as [|n IH]; [cbn [Nat.add]; change (countQ 0) with 0%Qc; ring|].
  cbn [Nat.add]. rewrite !countQ_S, IH. ring.
Qed.
Lemma countQ_mul n m : countQ (n * m) = (countQ n * countQ m)%Qc.
Proof.
  induction n as [|n IH]; [cbn [Nat.mul]; change (countQ 0) with 0%Qc; ring|].
  cbn [Nat.mul]. rewrite countQ_add, !countQ_S, IH. ring.
Qed.
Lemma countQ_nonzero n : countQ (S n) <> 0%Qc.
Proof.
  unfold countQ. intros H. apply (f_equal this) in H. unfold Q2Qc in H. cbn [this] in H.
  apply (f_equal Qred) in H. rewrite Qred_involutive in H.
  assert (E : Qeq (inject_Z (Z.of_nat (S n))) 0) by (rewrite <- (Qred_correct (inject_Z _)), H; reflexivity).
  unfold Qeq, inject_Z in E. cbn [Qnum Qden] in E. lia.
Qed.
Lemma sumQ_app l m : sumQ (l ++ m) = (sumQ l + sumQ m)%Qc.
Proof. 
  induction l as [|a l IH]; cbn [app]; [change (sumQ []) with 0%Qc; ring|].
  change (sumQ (a :: l ++ m)) with (a + sumQ (l ++ m))%Qc. change (sumQ (a :: l)) with (a + sumQ l)%Qc.
  rewrite IH. ring.
Qed.

Lemma mean_splits : splits mean_red.
Proof.
  intros n xss Hn. destruct n as [|n].
  - destruct xss as [|xs xss]; [reflexivity|].
    assert (Ec : forall l : list (list Qc), Forall (fun xs => length xs = 0) l -> concat l = []).
    { intros l Hl. induction Hl as [|ys l Hy _ IH]; simpl; auto. destruct ys; [auto|discriminate]. }
    rewrite Ec by auto. inversion Hn; subst. destruct xs; [|discriminate]. reflexivity.
  - assert (Em : mapM mean_red xss = Ok (map (fun xs => sumQ xs / countQ (S n))%Qc xss)).
    { induction Hn as [|xs xss Hx Hn IH]; simpl; auto. rewrite IH. unfold mean_red. rewrite Hx. destruct xs; [discriminate|]. reflexivity. }
    rewrite Em. cbn [bind].
    assert (El : length (concat xss) = length xss * S n).
    { clear Em. induction Hn as [|xs xss Hx Hn IH]; simpl; auto. rewrite app_length, IH. lia. }
    assert (Es : sumQ (map (fun xs => sumQ xs / countQ (S n))%Qc xss) = (sumQ (concat xss) / countQ (S n))%Qc).
    { clear. pose proof (countQ_nonzero n). induction xss as [|xs xss IH]; simpl.
      - change (sumQ []) with 0%Qc. field. auto.
      - rewrite IH, sumQ_app. field. auto. }
    destruct xss as [|xs xss]; [reflexivity|].
    unfold mean_red. rewrite El.
    destruct (concat (xs :: xss)) as [|q qs] eqn:Ec; [simpl in El; discriminate|]. rewrite <- Ec in *.
    rewrite map_length. cbn [map]. rewrite <- (map_cons (fun xs => sumQ xs / countQ (S n))%Qc). rewrite Es, countQ_mul. f_equal.
    cbn [length]. field. split; apply countQ_nonzero.
Qed.

Lemma mean_symmetric : symmetric mean_red.
Proof.
  intros vs vs' H. unfold mean_red.
  assert (Es : sumQ vs = sumQ vs') by (clear - H; induction H; simpl; try congruence; ring).
  rewrite Es, (Permutation_length H). destruct vs, vs'; auto; apply Permutation_length in H; discriminate.
Qed.

Lemma mean_copies : idempotent_on_copies mean_red.
Proof.
  intros v n Hn. destruct n as [|n]; [congruence|]. unfold mean_red. rewrite repeat_length.
  change (List.repeat v (S n)) with (v :: List.repeat v n). cbv iota. f_equal.
  assert (E : forall k, sumQ (List.repeat v k) = (countQ k * v)%Qc).
  { induction k as [|k IH]; simpl; [change (countQ 0) with 0%Qc; unfold sumQ; simpl; ring|]. rewrite IH, countQ_S. ring. }
  change (v :: List.repeat v n) with (List.repeat v (S n)). rewrite E. field. apply countQ_nonzero.
Qed.
