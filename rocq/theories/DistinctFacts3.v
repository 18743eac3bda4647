(** * Reductions that notice one element; new axes are not told apart *)
From Coq Require Import QArith Qcanon.
From Verif Require Import Py Tensor ListFacts TensorFacts SpecSem SpecGrammar SpecPattern SpecOps SpecDistinct Parsing Recipe Ops Backends Api RedFacts Instances ApiFacts FrontFacts3.
Close Scope Qc_scope.
Close Scope Q_scope.

Section Folds.
  Context {A : Type} (f : A -> A -> A).
  Lemma fold_neutral u m : (forall c, f u c = c) -> forall v, fold_right f v (repeat u m) = v.
  Proof. intros H v. induction m as [|m IH]; cbn; [reflexivity|]. now rewrite IH, H. Qed.
  Lemma fold_notices u b : (forall c, f u c = c) -> f b u = b -> u <> b -> notices (fold_red f u) u b.
  Proof.
    intros H1 H2 Hn. split; [exact Hn|]. intros k m. exists u, b. unfold fold_red. rewrite fold_neutral by exact H1.
    rewrite fold_right_app. cbn [fold_right]. rewrite (fold_neutral u m H1), H2, (fold_neutral u k H1). auto.
  Qed.
  Lemma fold_left_same a m : f a a = a -> fold_left f (repeat a m) a = a.
  Proof. intros H. induction m as [|m IH]; cbn; [reflexivity|]. now rewrite H. Qed.
  Lemma fold_left_keep a b m : f b a = b -> fold_left f (repeat a m) b = b.
  Proof. intros H. induction m as [|m IH]; cbn; [reflexivity|]. now rewrite H. Qed.
  Lemma fold1_notices a b : f a a = a -> f a b = b -> f b a = b -> a <> b -> notices (fold1_red f) a b.
  Proof.
    intros Ha Hab Hba Hn. split; [exact Hn|]. intros k m. exists a, b. split; [|split; [|exact Hn]].
    - cbn. now rewrite fold_left_same.
    - destruct k as [|k]; cbn; [now rewrite fold_left_keep|]. rewrite fold_left_app, fold_left_same by exact Ha. cbn. now rewrite Hab, fold_left_keep.
  Qed.
End Folds.

Lemma sumQ_zeros m : sumQ (repeat 0%Qc m) = 0%Qc.
Proof. induction m as [|m IH]; [reflexivity|]. change (0 + sumQ (repeat 0 m) = 0)%Qc. rewrite IH. reflexivity. Qed.
Lemma mean_notices : notices mean_red 0%Qc 1%Qc.
Proof.
  assert (N : (0 <> 1)%Qc) by discriminate. split; [exact N|]. intros k m.
  exists (0 / countQ (S (k + m)))%Qc, (1 / countQ (S (k + m)))%Qc. split; [|split].
  - unfold mean_red. rewrite repeat_length, sumQ_zeros. reflexivity.
  - unfold mean_red. assert (El : length (repeat 0%Qc k ++ 1%Qc :: repeat 0%Qc m) = S (k + m)) by (rewrite app_length; cbn; rewrite !repeat_length; lia).
    assert (Es : sumQ (repeat 0%Qc k ++ 1%Qc :: repeat 0%Qc m) = 1%Qc).
    { rewrite sumQ_app, sumQ_zeros. change (0 + (1 + sumQ (repeat 0 m)) = 1)%Qc. rewrite sumQ_zeros. reflexivity. }
    rewrite El, Es. destruct (repeat 0%Qc k ++ 1%Qc :: repeat 0%Qc m) eqn:E; [destruct k; discriminate|reflexivity].
  - intros E. pose proof (countQ_nonzero (k + m)) as P. apply N.
    transitivity (0 / countQ (S (k + m)) * countQ (S (k + m)))%Qc; [field; exact P|]. rewrite E. field. exact P.
Qed.

(** ** two new axes of the same length, in one order or the other *)
Definition swapped (b c : label) (ix : label -> nat) : label -> nat := fun d =>
  if label_eqb d b then ix c else if label_eqb d c then ix b else ix d.

Lemma new_axes_same {A} (a b c : label) (len : label -> nat) (x y : tensor A) : NoDup [a; b; c] -> len b = len c ->
  moves [[a]] [[a]; [b; c]] len x y -> moves [[a]] [[a]; [c; b]] len x y.
Proof.
  intros N E (W & S & G). inversion N as [|? ? Na N1]; subst. inversion N1 as [|? ? Nb _]; subst. cbn in Na, Nb.
  assert (T : forall d, label_eqb d d = true) by (intros d; now apply label_eqb_eq).
  assert (F : forall d d', d <> d' -> label_eqb d d' = false) by (intros d d' H; destruct (label_eqb d d') eqn:X; [apply label_eqb_eq in X; congruence|reflexivity]).
  assert (Sa : forall ix, swapped b c ix a = ix a) by (intros ix; unfold swapped; rewrite !F by (intuition congruence); reflexivity).
  assert (Sb : forall ix, swapped b c ix b = ix c) by (intros ix; unfold swapped; rewrite T; reflexivity).
  assert (Sc : forall ix, swapped b c ix c = ix b) by (intros ix; unfold swapped; rewrite T; rewrite F by (intros ->; tauto); reflexivity).
  split; [exact W|]. split; [rewrite S; unfold gshape; cbn [map prodn fold_right]; now rewrite E|].
  intros ix Hix. specialize (G (swapped b c ix)). cbn [gindex map] in G |- *. rewrite Sa, Sb, Sc, E in G. rewrite E. apply G.
  assert (Ha : ix a < len a) by (apply Hix; cbn; auto). assert (Hb : ix b < len b) by (apply Hix; cbn; auto 6). assert (Hc : ix c < len c) by (apply Hix; cbn; auto 6).
  intros d Hd. cbn in Hd. destruct Hd as [<-|[<-|[<-|[<-|[]]]]]; rewrite ?Sa, ?Sb, ?Sc; congruence || lia.
Qed.
