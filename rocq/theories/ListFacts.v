(** * Lemmas about lists, results and the Python helpers *)
From Verif Require Import Py Tensor.

(** ** results *)
Lemma bind_Ok {A B} (m : result A) (f : A -> result B) b :
  bind m f = Ok b <-> exists a, m = Ok a /\ f a = Ok b.
Proof.
  destruct m as [a|e]; simpl; split.
  - intros H; exists a; auto.
  - intros [a' [E H]]; inversion E; subst; auto.
  - discriminate.
  - intros [a' [E _]]; discriminate.
Qed.

Lemma bind_Err {A B} (m : result A) (f : A -> result B) e :
  bind m f = Err e <-> m = Err e \/ exists a, m = Ok a /\ f a = Err e.
Proof.
  destruct m as [a|e']; simpl; split.
  - intros H; right; exists a; auto.
  - intros [H|[a' [E H]]]; [discriminate|inversion E; subst; auto].
  - intros H; left; congruence.
  - intros [H|[a' [E _]]]; [congruence|discriminate].
Qed.

Lemma bind_assoc {A B C} (m : result A) (f : A -> result B) (g : B -> result C) :
  bind (bind m f) g = bind m (fun a => bind (f a) g).
Proof. destruct m; reflexivity. Qed.

Lemma bind_ext {A B} (m : result A) (f g : A -> result B) :
  (forall a, m = Ok a -> f a = g a) -> bind m f = bind m g.
Proof. destruct m; simpl; auto. Qed.

Lemma raise_if_Ok c e u : raise_if c e = Ok u <-> c = false.
Proof. destruct c, u; simpl; split; congruence. Qed.

Lemma raise_if_Err c e e' : raise_if c e = Err e' <-> c = true /\ e = e'.
Proof. destruct c; simpl; split; intuition congruence. Qed.

Lemma of_option_Ok {A} e (o : option A) a : of_option e o = Ok a <-> o = Some a.
Proof. destruct o; simpl; split; congruence. Qed.

Ltac inv_bind H :=
  let a := fresh "a" in let E := fresh "E" in
  apply bind_Ok in H; destruct H as [a [E H]].

Lemma Forall2_length {A B} (R : A -> B -> Prop) l m : Forall2 R l m -> length l = length m.
Proof. induction 1; simpl; congruence. Qed.

(** ** mapM *)
Lemma mapM_Ok_Forall2 {A B} (f : A -> result B) l ys :
  mapM f l = Ok ys <-> Forall2 (fun x y => f x = Ok y) l ys.
Proof.
  revert ys; induction l as [|x l IH]; intros ys; simpl; split.
  - intros H; inversion H; constructor.
  - intros H; inversion H; auto.
  - intros H. inv_bind H. inv_bind H. inversion H; subst. constructor; auto. apply IH; auto.
  - intros H; inversion H as [|? y ? ys' H1 H2]; subst. rewrite H1; simpl.
    apply IH in H2; rewrite H2; reflexivity.
Qed.

Lemma mapM_map {A B C} (f : B -> result C) (g : A -> B) l :
  mapM f (map g l) = mapM (fun x => f (g x)) l.
Proof. induction l as [|x l IH]; simpl; [reflexivity|]. rewrite IH; reflexivity. Qed.

Lemma mapM_ext_in {A B} (f g : A -> result B) l :
  (forall x, In x l -> f x = g x) -> mapM f l = mapM g l.
Proof.
  induction l as [|x l IH]; intros H; simpl; [reflexivity|].
  rewrite (H x) by (left; auto). rewrite IH by (intros; apply H; right; auto). reflexivity.
Qed.

Lemma mapM_total {A B} (f : A -> result B) (g : A -> B) l :
  (forall x, In x l -> f x = Ok (g x)) -> mapM f l = Ok (map g l).
Proof.
  induction l as [|x l IH]; intros H; simpl; [reflexivity|].
  rewrite (H x) by (left; auto); simpl. rewrite IH by (intros; apply H; right; auto). reflexivity.
Qed.

Lemma mapM_pure {A B} (g : A -> B) l : mapM (fun x => Ok (g x)) l = Ok (map g l).
Proof. apply mapM_total; auto. Qed.

Lemma mapM_length {A B} (f : A -> result B) l ys : mapM f l = Ok ys -> length ys = length l.
Proof. intros H; apply mapM_Ok_Forall2 in H; apply Forall2_length in H; auto. Qed.

Lemma mapM_nth {A B} (f : A -> result B) l ys i x :
  mapM f l = Ok ys -> nth_error l i = Some x -> exists y, nth_error ys i = Some y /\ f x = Ok y.
Proof.
  intros H; apply mapM_Ok_Forall2 in H. revert i x.
  induction H as [|a b l ys Hab H IH]; intros i x Hi; destruct i as [|i]; simpl in *; try discriminate.
  - inversion Hi; subst. exists b; auto.
  - apply IH in Hi; auto.
Qed.

Lemma mapM_exists {A B} (f : A -> result B) l :
  (forall x, In x l -> exists y, f x = Ok y) -> exists ys, mapM f l = Ok ys.
Proof.
  induction l as [|x l IH]; intros H; simpl; [eexists; reflexivity|].
  destruct (H x) as [y Hy]; [left; auto|]. rewrite Hy; simpl.
  destruct IH as [ys Hys]; [intros; apply H; right; auto|]. rewrite Hys; simpl. eexists; reflexivity.
Qed.

Lemma mapM_Ok_in {A B} (f : A -> result B) l ys x :
  mapM f l = Ok ys -> In x l -> exists y, f x = Ok y /\ In y ys.
Proof.
  intros H; apply mapM_Ok_Forall2 in H.
  induction H as [|a b l ys Hab H IH]; intros Hin; [inversion Hin|].
  destruct Hin as [->|Hin]; [exists b; split; [auto|left; auto]|].
  destruct (IH Hin) as [y [E I]]; exists y; split; [auto|right; auto].
Qed.

Lemma mapM_Err_in {A B} (f : A -> result B) l e :
  mapM f l = Err e -> exists x, In x l /\ f x = Err e.
Proof.
  induction l as [|x l IH]; simpl; [discriminate|].
  intros H. apply bind_Err in H. destruct H as [H|[y [E H]]].
  - exists x; auto.
  - apply bind_Err in H. destruct H as [H|[ys [E2 H]]]; [|discriminate].
    destruct (IH H) as [x' [I E']]; exists x'; auto.
Qed.

Lemma mapM_app {A B} (f : A -> result B) l1 l2 :
  mapM f (l1 ++ l2) = let* a := mapM f l1 in let* b := mapM f l2 in Ok (a ++ b).
Proof.
  induction l1 as [|x l1 IH]; simpl.
  - destruct (mapM f l2); reflexivity.
  - destruct (f x); simpl; [|reflexivity]. rewrite IH.
    destruct (mapM f l1); simpl; [|reflexivity]. destruct (mapM f l2); reflexivity.
Qed.

Lemma mapM_bind_map {A B C} (f : A -> result B) (g : B -> C) l :
  mapM (fun x => let* y := f x in Ok (g y)) l = let* ys := mapM f l in Ok (map g ys).
Proof.
  induction l as [|x l IH]; simpl; [reflexivity|].
  destruct (f x); simpl; [|reflexivity]. rewrite IH. destruct (mapM f l); reflexivity.
Qed.

(** ** foldM *)
Lemma foldM_app {A B} (f : A -> B -> result A) l1 l2 a :
  foldM f (l1 ++ l2) a = let* a' := foldM f l1 a in foldM f l2 a'.
Proof.
  revert a; induction l1 as [|x l1 IH]; intros a; simpl; [reflexivity|].
  destruct (f a x); simpl; auto.
Qed.

Lemma foldM_ext_in {A B} (f g : A -> B -> result A) l a :
  (forall x a, In x l -> f a x = g a x) -> foldM f l a = foldM g l a.
Proof.
  revert a; induction l as [|x l IH]; intros a H; simpl; [reflexivity|].
  rewrite (H x a) by (left; auto). destruct (g a x); simpl; [|reflexivity].
  apply IH; intros; apply H; right; auto.
Qed.

(** ** enumerate *)
Lemma enumerate_from_nth {A} (l : list A) k i :
  nth_error (enumerate_from k l) i = option_map (fun x => (k + i, x)) (nth_error l i).
Proof.
  revert k i; induction l as [|x l IH]; intros k i; destruct i as [|i]; simpl; auto.
  - rewrite Nat.add_0_r; auto.
  - rewrite IH. destruct (nth_error l i); simpl; auto. do 2 f_equal; lia.
Qed.

Lemma enumerate_from_length {A} (l : list A) k : length (enumerate_from k l) = length l.
Proof. revert k; induction l as [|x l IH]; intros k; simpl; auto. Qed.

Lemma enumerate_from_snd {A} (l : list A) k : map snd (enumerate_from k l) = l.
Proof. revert k; induction l as [|x l IH]; intros k; simpl; f_equal; auto. Qed.

Lemma enumerate_from_fst {A} (l : list A) k : map fst (enumerate_from k l) = seq k (length l).
Proof. revert k; induction l as [|x l IH]; intros k; simpl; f_equal; auto. Qed.

(** ** index_of *)
Section IndexOf.
  Context {X : Type} (eqb : X -> X -> bool) (eqb_spec : forall a b, eqb a b = true <-> a = b).

  Lemma eqb_refl' a : eqb a a = true.
  Proof. apply eqb_spec; auto. Qed.

  Lemma index_of_Some x l i : index_of eqb x l = Some i -> nth_error l i = Some x.
  Proof.
    revert i; induction l as [|y l IH]; intros i; simpl; [discriminate|].
    destruct (eqb x y) eqn:E.
    - intros H; inversion H; subst. apply eqb_spec in E; subst; auto.
    - destruct (index_of eqb x l) as [j|]; simpl; [|discriminate].
      intros H; inversion H; subst; simpl; auto.
  Qed.

  Lemma index_of_In x l : In x l -> exists i, index_of eqb x l = Some i.
  Proof.
    induction l as [|y l IH]; simpl; [tauto|].
    intros [->|H].
    - rewrite eqb_refl'; eauto.
    - destruct (eqb x y); [eauto|]. destruct (IH H) as [i Hi]; rewrite Hi; simpl; eauto.
  Qed.

  Lemma index_of_None x l : index_of eqb x l = None <-> ~ In x l.
  Proof.
    split.
    - intros H Hin. destruct (index_of_In x l Hin) as [i Hi]; congruence.
    - intros H. destruct (index_of eqb x l) as [i|] eqn:E; auto.
      apply index_of_Some in E. apply nth_error_In in E. contradiction.
  Qed.

  Lemma index_of_lt x l i : index_of eqb x l = Some i -> i < length l.
  Proof. intros H; apply index_of_Some in H. apply nth_error_Some; congruence. Qed.

  Lemma index_of_nth l i x : NoDup l -> nth_error l i = Some x -> index_of eqb x l = Some i.
  Proof.
    revert i; induction l as [|y l IH]; intros i Hnd Hi; [destruct i; discriminate|].
    inversion Hnd as [|? ? Hy Hnd']; subst.
    destruct i as [|i]; simpl in *.
    - inversion Hi; subst. rewrite eqb_refl'; auto.
    - destruct (eqb x y) eqn:E.
      + apply eqb_spec in E; subst. apply nth_error_In in Hi; contradiction.
      + rewrite (IH i); auto.
  Qed.

  Lemma index_of_app_l x l1 l2 i : index_of eqb x l1 = Some i -> index_of eqb x (l1 ++ l2) = Some i.
  Proof.
    revert i; induction l1 as [|y l1 IH]; intros i; simpl; [discriminate|].
    destruct (eqb x y); auto.
    destruct (index_of eqb x l1) as [j|]; simpl; [|discriminate].
    intros H; inversion H; subst. rewrite (IH j); auto.
  Qed.
End IndexOf.

Lemma Nat_eqb_spec' a b : Nat.eqb a b = true <-> a = b.
Proof. apply Nat.eqb_eq. Qed.

Lemma index_of_map {X Y} (eqx : X -> X -> bool) (eqy : Y -> Y -> bool) (f : X -> Y) x l :
  (forall y, In y l -> eqy (f x) (f y) = eqx x y) ->
  index_of eqy (f x) (map f l) = index_of eqx x l.
Proof.
  induction l as [|y l IH]; intros H; simpl; [reflexivity|].
  rewrite (H y) by (left; auto). rewrite IH by (intros; apply H; right; auto). reflexivity.
Qed.

(** ** membership booleans *)
Lemma nat_mem_In k l : nat_mem k l = true <-> In k l.
Proof.
  unfold nat_mem. rewrite existsb_exists. split.
  - intros [x [H E]]; apply Nat.eqb_eq in E; subst; auto.
  - intros H; exists k; split; auto. apply Nat.eqb_refl.
Qed.

Lemma nat_nodupb_NoDup l : nat_nodupb l = true <-> NoDup l.
Proof.
  induction l as [|x l IH]; simpl; split; intros H.
  - constructor.
  - auto.
  - apply andb_true_iff in H; destruct H as [H1 H2]. constructor; [|apply IH; auto].
    intros Hin; apply nat_mem_In in Hin. rewrite Hin in H1; discriminate.
  - inversion H as [|? ? Hx Hnd]; subst. apply andb_true_iff; split; [|apply IH; auto].
    apply negb_true_iff. destruct (nat_mem x l) eqn:E; auto. apply nat_mem_In in E; contradiction.
Qed.

(** ** list_upd / list_get *)
Lemma list_upd_Ok {A} (l : list A) i v l' :
  list_upd l i v = Ok l' <-> i < length l /\ l' = firstn i l ++ v :: skipn (S i) l.
Proof.
  revert i l'; induction l as [|x l IH]; intros i l'; simpl.
  - split; [discriminate|]. intros [H _]; lia.
  - destruct i as [|i]; simpl.
    + split; [intros H; inversion H; split; [lia|auto]|intros [_ ->]; auto].
    + split.
      * intros H. inv_bind H. inversion H; subst. apply IH in E as [Hl ->]. split; [lia|auto].
      * intros [Hl ->]. assert (E : list_upd l i v = Ok (firstn i l ++ v :: skipn (S i) l)) by (apply IH; split; [lia|auto]).
        rewrite E; reflexivity.
Qed.

Lemma list_upd_length {A} (l : list A) i v l' : list_upd l i v = Ok l' -> length l' = length l.
Proof.
  revert i l'; induction l as [|x l IH]; intros i l'; simpl; [discriminate|].
  destruct i as [|i]; simpl.
  - intros H; inversion H; auto.
  - intros H; inv_bind H. inversion H; subst; simpl. f_equal; eauto.
Qed.

Lemma list_upd_nth {A} (l : list A) i v l' j :
  list_upd l i v = Ok l' -> nth_error l' j = if j =? i then Some v else nth_error l j.
Proof.
  revert i j l'; induction l as [|x l IH]; intros i j l'; simpl; [discriminate|].
  destruct i as [|i]; simpl.
  - intros H; inversion H; subst. destruct j; simpl; auto.
  - intros H. inv_bind H. inversion H; subst. destruct j as [|j]; simpl; [auto|]. apply IH; auto.
Qed.

Lemma list_upd_exists {A} (l : list A) i v : i < length l -> exists l', list_upd l i v = Ok l'.
Proof. intros H. eexists. apply list_upd_Ok; split; eauto. Qed.

Lemma list_get_Ok {A} (l : list A) i a : list_get l i = Ok a <-> nth_error l i = Some a.
Proof. apply of_option_Ok. Qed.

(** ** strings *)
Lemma str_eqb_eq a b : str_eqb a b = true <-> a = b.
Proof. unfold str_eqb; destruct (str_eq_dec a b); split; congruence. Qed.
Lemma str_eqb_refl a : str_eqb a a = true.
Proof. apply str_eqb_eq; auto. Qed.
Lemma str_mem_In x l : str_mem x l = true <-> In x l.
Proof.
  unfold str_mem. rewrite existsb_exists. split.
  - intros [y [H E]]; apply str_eqb_eq in E; subst; auto.
  - intros H; exists x; split; auto. apply str_eqb_refl.
Qed.

(** ** misc lists *)
Lemma map_firstn {A B} (f : A -> B) n l : map f (firstn n l) = firstn n (map f l).
Proof. revert n; induction l as [|x l IH]; intros [|n]; simpl; f_equal; auto. Qed.
Lemma map_skipn {A B} (f : A -> B) n l : map f (skipn n l) = skipn n (map f l).
Proof. revert n; induction l as [|x l IH]; intros [|n]; simpl; auto. Qed.
Lemma nth_map_lt {A B} (f : A -> B) l n d d' : n < length l -> nth n (map f l) d = f (nth n l d').
Proof. intros H. rewrite (nth_indep _ _ (f d')); [apply map_nth|rewrite map_length; auto]. Qed.
Lemma map2_map {A B C D E} (f : C -> D -> E) (g : A -> C) (h : B -> D) l m :
  map2 f (map g l) (map h m) = map2 (fun a b => f (g a) (h b)) l m.
Proof. revert m; induction l as [|x l IH]; intros [|y m]; simpl; f_equal; auto. Qed.
Lemma map2_same {A E} (f : A -> A -> E) l : map2 f l l = map (fun a => f a a) l.
Proof. induction l as [|x l IH]; simpl; f_equal; auto. Qed.
Lemma map2_length {A B C} (f : A -> B -> C) l m : length (map2 f l m) = Nat.min (length l) (length m).
Proof. revert m; induction l as [|x l IH]; intros [|y m]; simpl; auto. Qed.

Lemma NoDup_app_iff {A} (l m : list A) :
  NoDup (l ++ m) <-> NoDup l /\ NoDup m /\ (forall x, In x l -> ~ In x m).
Proof.
  induction l as [|x l IH]; simpl.
  - split; [intros H; repeat split; auto; constructor|tauto].
  - split.
    + intros H; inversion H as [|? ? Hx Hnd]; subst. apply IH in Hnd as [H1 [H2 H3]].
      rewrite in_app_iff in Hx. repeat split; auto.
      * constructor; auto.
      * intros y [->|Hy]; auto.
    + intros [H1 [H2 H3]]. inversion H1 as [|? ? Hx Hnd]; subst. constructor.
      * rewrite in_app_iff. intros [H|H]; [auto|]. apply (H3 x); auto.
      * apply IH; repeat split; auto.
Qed.

Lemma list_ext {A} (l m : list A) : (forall i, nth_error l i = nth_error m i) -> l = m.
Proof.
  revert m; induction l as [|x l IH]; intros m H.
  - destruct m as [|y m]; auto. specialize (H 0); discriminate.
  - destruct m as [|y m]; [specialize (H 0); discriminate|].
    pose proof (H 0) as H0; simpl in H0; inversion H0; subst. f_equal. apply IH.
    intros i; apply (H (S i)).
Qed.

Lemma nth_error_seq k n i : i < n -> nth_error (seq k n) i = Some (k + i).
Proof.
  revert k i; induction n as [|n IH]; intros k i H; [lia|].
  destruct i as [|i]; simpl; [f_equal; lia|]. rewrite IH by lia. f_equal; lia.
Qed.
