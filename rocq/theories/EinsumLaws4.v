(** * einsum in stages: contracting some of the operands first *)
From Verif Require Import Py Tensor ListFacts TensorFacts SpecSem SpecGrammar SpecForms SpecProducts Parsing Recipe Ops Backends Einsum Api StepFacts ReduceFacts EinsumFacts EinsumFacts2 EinsumFacts3 EinsumFacts4 EinsumLaws EinsumLaws2 SpecEinsum.

Notation sterm := (term (X := pystr)).

Lemma slab_eq : forall l m : lab pystr, lab_eqb str_eqb l m = true <-> l = m.
Proof. exact (lab_eqb_eq str_eqb str_eqb_eq). Qed.
Lemma slab_dec (l m : lab pystr) : {l = m} + {l <> m}.
Proof.
  destruct (lab_eqb str_eqb l m) eqn:E; [left; apply slab_eq; auto|right; intros ->].
  assert (X : lab_eqb str_eqb m m = true) by (apply slab_eq; auto). congruence.
Qed.

Lemma labs_length e (t : sterm) : length (term_labs e t) = length (term_names t) + e * term_dots t.
Proof.
  unfold term_labs, term_names, term_dots. induction t as [|[a|] t IH]; cbn [flat_map filter length]; [lia| |].
  - rewrite !app_length, IH. cbn. lia.
  - rewrite !app_length, IH, map_length, rev_length, seq_length. cbn [length]. lia.
Qed.
Lemma labs_dot_iff e (t : sterm) k : In (LDot k) (term_labs e t) <-> k < e /\ In None t.
Proof.
  unfold term_labs. rewrite in_flat_map. split.
  - intros [[a|] [H1 H2]]; [destruct H2 as [H2|[]]; discriminate|]. apply in_map_iff in H2 as [j [E H2]]. injection E as ->. apply in_rev, in_seq in H2. split; [lia|auto].
  - intros [H1 H2]. exists None. split; auto. apply in_map. apply in_rev. rewrite rev_involutive. apply in_seq. lia.
Qed.
Lemma no_dots (t : sterm) : ~ In None t -> term_dots t = 0.
Proof. unfold term_dots. induction t as [|[a|] t IH]; intros H; [reflexivity| |]; cbn; [apply IH; intros X; apply H; right; auto|destruct H; left; auto]. Qed.
Lemma some_dots (t : sterm) : In None t -> 1 <= term_dots t.
Proof. unfold term_dots. induction t as [|[a|] t IH]; intros H; [destruct H| |]; cbn; [apply IH; destruct H as [H|H]; [discriminate|auto]|lia]. Qed.
Lemma list_max_app' l m : list_max (l ++ m) = Nat.max (list_max l) (list_max m).
Proof. unfold list_max. induction l as [|a l IH]; cbn; [reflexivity|]. rewrite IH. lia. Qed.

Section Data.
  Context {A : Type}.
  Implicit Types xs ys us vs : list (tensor A).

  Lemma no_spare len (t : sterm) (x : tensor A) : operand_fits len t x -> ~ In None t -> spare t x = 0.
  Proof.
    intros (_ & _ & F) H. apply Forall2_length in F. unfold operand_labs in F. rewrite labs_length, (no_dots t H) in F. unfold spare in *. lia.
  Qed.
  Lemma combine_app_same {X Y} (l1 l2 : list X) (m1 m2 : list Y) : length l1 = length m1 -> combine (l1 ++ l2) (m1 ++ m2) = combine l1 m1 ++ combine l2 m2.
  Proof. revert m1. induction l1 as [|a l1 IH]; intros [|b m1] H; try discriminate; auto. cbn. f_equal. apply IH. cbn in H. lia. Qed.
  Lemma Forall2_split {X Y} (P : X -> Y -> Prop) l1 l2 m1 m2 : length l1 = length m1 -> Forall2 P (l1 ++ l2) (m1 ++ m2) -> Forall2 P l1 m1 /\ Forall2 P l2 m2.
  Proof.
    revert m1. induction l1 as [|a l1 IH]; intros [|b m1] H F; try discriminate; [split; [constructor|exact F]|]. cbn in F. inversion F; subst.
    destruct (IH m1) as [I1 I2]; [cbn in H; lia|assumption|]. split; auto.
  Qed.
  Lemma Forall2_of_combine {X Y} (P : X -> Y -> Prop) l : forall m, length l = length m -> (forall a b, In (a, b) (combine l m) -> P a b) -> Forall2 P l m.
  Proof.
    induction l as [|a l IH]; intros [|b m] H K; try discriminate; constructor; [apply K; left; reflexivity|]. apply IH; [cbn in H; lia|].
    intros a' b' Hi. apply K. right. auto.
  Qed.
  Lemma all_labs_app (Ts Ss : list sterm) xs ys : length Ts = length xs -> all_labs (Ts ++ Ss) (xs ++ ys) = all_labs Ts xs ++ all_labs Ss ys.
  Proof. intros H. unfold all_labs. rewrite map2_app by auto. apply concat_app. Qed.
  Lemma in_all_iff (Ts : list sterm) : forall xs l, In l (all_labs Ts xs) <-> exists t x, In (t, x) (combine Ts xs) /\ In l (operand_labs t x).
  Proof.
    unfold all_labs. induction Ts as [|t Ts IH]; intros xs l; [split; [intros []|intros (t & x & [] & _)]|].
    destruct xs as [|x xs]; [split; [intros []|intros (t' & x & [] & _)]|]. cbn [map2 concat combine]. rewrite in_app_iff, IH. split.
    - intros [H|(t' & x' & H1 & H2)]; [exists t, x; split; [left|]; auto|exists t', x'; split; [right|]; auto].
    - intros (t' & x' & [H|H] & H2); [injection H as -> ->; auto|right; exists t', x'; auto].
  Qed.
  Lemma all_name (Ts : list sterm) xs a : length Ts = length xs -> (In (LName a) (all_labs Ts xs) <-> In a (flat_map term_names Ts)).
  Proof.
    intros H. unfold all_labs. revert xs H. induction Ts as [|t Ts IH]; intros [|x xs] H; try discriminate; [split; intros []|]. cbn [map2 concat flat_map].
    rewrite !in_app_iff, (IH xs) by (cbn in H; lia). unfold operand_labs. rewrite term_labs_name. reflexivity.
  Qed.
  Lemma in_spares (Ts : list sterm) xs t x : In (t, x) (combine Ts xs) -> spare t x <= list_max (map2 spare Ts xs).
  Proof.
    unfold list_max. revert xs. induction Ts as [|t0 Ts IH]; intros [|x0 xs] H; try contradiction. cbn [map2 fold_right]. destruct H as [H|H].
    - injection H as -> ->. lia.
    - apply IH in H. lia.
  Qed.
  Lemma max_spare (Ts : list sterm) xs k : k < list_max (map2 spare Ts xs) -> exists t x, In (t, x) (combine Ts xs) /\ k < spare t x.
  Proof.
    unfold list_max. revert xs. induction Ts as [|t Ts IH]; intros [|x xs] H; cbn [map2 fold_right] in H; try lia.
    destruct (Nat.lt_ge_cases k (spare t x)) as [C|C]; [exists t, x; split; [left; auto|auto]|]. destruct (IH xs) as (t' & x' & H1 & H2); [lia|].
    exists t', x'. split; [right; auto|auto].
  Qed.
End Data.

(** ** any terms with sensible right side make a good call, for some lengths *)
Section Inner.
  Context {A : Type} (len : lab pystr -> nat) (Ts : list sterm) (xs : list (tensor A)) (F : Forall2 (operand_fits len) Ts xs).

  Definition dims_in_call : list (lab pystr * nat) := concat (map2 (fun t x => combine (operand_labs t x) (shp x)) Ts xs).
  Lemma dims_call l d : In (l, d) dims_in_call <-> exists t x, In (t, x) (combine Ts xs) /\ In (l, d) (combine (operand_labs t x) (shp x)).
  Proof.
    clear F. unfold dims_in_call. revert xs. induction Ts as [|t T IH]; intros [|x xs']; cbn [map2 concat combine]; try (split; [intros []|intros (t' & x' & [] & _)]).
    rewrite in_app_iff, IH. split.
    - intros [H|(t' & x' & H1 & H2)]; [exists t, x; split; [left|]; auto|exists t', x'; split; [right|]; auto].
    - intros (t' & x' & [H|H] & H2); [injection H as -> ->; auto|right; exists t', x'; auto].
  Qed.
  Definition inner_len (l : lab pystr) : nat :=
    match l with
    | LName _ => len l
    | LDot _ => if existsb (fun p => lab_eqb str_eqb (fst p) l && (snd p =? len l)) dims_in_call then len l else 1
    end.
  Lemma dim_inner l d : In (l, d) dims_in_call -> dim_fits inner_len l d.
  Proof.
    intros H. assert (H0 := H). apply dims_call in H as (t & x & H1 & H2). apply (Forall2_combine _ _ _ _ _ F) in H1 as (_ & _ & H1). apply (Forall2_combine _ _ _ _ _ H1) in H2.
    destruct l as [a|k]; [exact H2|]. cbn [dim_fits] in *. destruct (Nat.eq_dec d 1) as [->|D]; [auto|]. destruct H2 as [->|]; [|contradiction].
    left. unfold inner_len. assert (E : existsb (fun p => lab_eqb str_eqb (fst p) (LDot k) && (snd p =? len (LDot k))) dims_in_call = true); [|rewrite E; reflexivity].
    apply existsb_exists. eexists. split; [exact H0|]. cbn [fst snd]. rewrite (proj2 (slab_eq (LDot k) (LDot k)) eq_refl), Nat.eqb_refl. reflexivity.
  Qed.
  Lemma inner_fits : Forall2 (operand_fits inner_len) Ts xs.
  Proof.
    assert (K : forall t x, In (t, x) (combine Ts xs) -> operand_fits inner_len t x).
    { intros t x H. pose proof (Forall2_combine _ _ _ _ _ F H) as (H1 & H2 & H3). split; [auto|]. split; [auto|].
      assert (K : forall l d, In (l, d) (combine (operand_labs t x) (shp x)) -> dim_fits inner_len l d).
      { intros l d X. apply dim_inner, dims_call. eauto. }
      apply Forall2_of_combine; [eapply Forall2_length; exact H3|exact K]. }
    apply Forall2_of_combine; [eapply Forall2_length; exact F|exact K].
  Qed.
  Lemma inner_good M : NoDup (term_names M) -> incl (term_names M) (flat_map term_names Ts) -> term_dots M <= 1 -> (In None (concat Ts) -> In None M) ->
    good_call inner_len Ts M xs.
  Proof.
    intros H1 H2 H3 H4. split; [apply inner_fits|]. split; [auto|]. split; [auto|]. split; [auto|]. split; [auto|]. intros k Hk.
    enough (X : In (LDot k, inner_len (LDot k)) dims_in_call) by (apply dims_call; exact X).
    unfold inner_len. destruct (existsb _ dims_in_call) eqn:E.
    - apply existsb_exists in E as ([l d] & X1 & X2). cbn [fst snd] in X2. apply andb_prop in X2 as [X2 X3]. apply slab_eq in X2. apply Nat.eqb_eq in X3. subst. exact X1.
    - apply max_spare in Hk as (t & x & Ht & Hk). pose proof (Forall2_combine _ _ _ _ _ F Ht) as Hf.
      assert (Hn : In None t). { destruct (in_dec (fun a b : option pystr => ltac:(decide equality; apply (list_eq_dec N.eq_dec))) None t) as [Y|Y]; auto. rewrite (no_spare _ _ _ Hf Y) in Hk. lia. }
      destruct Hf as (_ & _ & Hf). destruct (Forall2_combine_l _ _ _ (LDot k) Hf) as [d Hd]; [apply labs_dot_iff; auto|].
      assert (X : In (LDot k, d) dims_in_call) by (apply dims_call; eauto).
      pose proof (Forall2_combine _ _ _ _ _ Hf Hd) as D. cbn in D. destruct D as [-> | ->]; [|exact X]. exfalso.
      assert (Y : existsb (fun p => lab_eqb str_eqb (fst p) (LDot k) && (snd p =? len (LDot k))) dims_in_call = true); [|congruence].
      apply existsb_exists. eexists. split; [exact X|]. cbn [fst snd]. rewrite (proj2 (slab_eq (LDot k) (LDot k)) eq_refl), Nat.eqb_refl. reflexivity.
  Qed.
End Inner.

(** ** two stages against one *)
Section Stages.
  Context {A : Type} (add mul : A -> A -> A) (zero one : A).
  Hypothesis add_comm : forall a b, add a b = add b a.
  Hypothesis add_assoc : forall a b c, add a (add b c) = add (add a b) c.
  Hypothesis add_zero : forall a, add zero a = a.
  Hypothesis mul_assoc : forall a b c, mul a (mul b c) = mul (mul a b) c.
  Hypothesis mul_one : forall a, mul one a = a.
  Hypothesis distr_l : forall a b c, mul a (add b c) = add (mul a b) (mul a c).
  Hypothesis distr_r : forall a b c, mul (add a b) c = add (mul a c) (mul b c).
  Hypothesis zero_l : forall a, mul zero a = zero.
  Hypothesis zero_r : forall a, mul a zero = zero.
  Context (len len' : lab pystr -> nat) (Ps Ts Ss : list sterm) (M R : sterm) (us xs vs : list (tensor A)) (z : tensor A).
  Hypothesis Hus : length Ps = length us.
  Hypothesis Hin : good_call len' Ts M xs.
  Hypothesis Hall : good_call len (Ps ++ Ts ++ Ss) R (us ++ xs ++ vs).
  Hypothesis Hkeep : forall a, In a (flat_map term_names Ts) -> In a (flat_map term_names Ps) \/ In a (flat_map term_names Ss) \/ In a (term_names R) -> In a (term_names M).
  Hypothesis Hdots : In None M -> In None R.
  Context (mi mo : list (lab pystr)).
  Hypothesis Hmi : summed Ts M xs mi.
  Hypothesis Hz : is_einsum str_eqb add mul zero one len' Ts M xs mi z.

  Notation L := (out_labs Ts xs M).
  Notation mx := (list_max (map2 spare Ts xs)).

  Lemma st_len : length Ts = length xs.
  Proof. destruct Hin as [F _]. eapply Forall2_length; exact F. Qed.
  Lemma st_fits : Forall2 (operand_fits len) Ps us /\ Forall2 (operand_fits len) Ts xs /\ Forall2 (operand_fits len) Ss vs.
  Proof.
    destruct Hall as [F _]. apply Forall2_split in F as [F1 F]; [|auto]. apply Forall2_split in F as [F2 F3]; [auto|apply st_len].
  Qed.
  Lemma st_none k : In (LDot k) (all_labs Ts xs) -> In None M.
  Proof.
    intros H. apply in_all_iff in H as (t & x & H1 & H2). apply labs_dot_iff in H2 as [_ H2]. destruct Hin as (_ & _ & _ & _ & H & _). apply H.
    apply in_concat. exists t. split; auto. eapply in_combine_l; exact H1.
  Qed.
  Lemma st_mx : spare M z = mx.
  Proof.
    destruct Hz as (_ & E & _). unfold spare at 1. rewrite E, map_length. unfold out_labs. rewrite labs_length.
    destruct Hin as (F & _ & _ & D & N & _). destruct (in_dec (fun a b : option pystr => ltac:(decide equality; apply (list_eq_dec N.eq_dec))) None M) as [Y|Y].
    - pose proof (some_dots M Y). replace (term_dots M) with 1 by lia. lia.
    - rewrite (no_dots M Y). enough (mx = 0) by lia. destruct mx as [|k] eqn:X; [reflexivity|]. exfalso.
      destruct (max_spare Ts xs k) as (t & x & H1 & H2); [lia|]. pose proof (Forall2_combine _ _ _ _ _ F H1) as Hf.
      rewrite (no_spare _ _ _ Hf) in H2; [lia|]. intros C. apply Y, N. apply in_concat. exists t. split; auto. eapply in_combine_l; exact H1.
  Qed.
  Lemma st_labs : operand_labs M z = L.
  Proof. unfold operand_labs, out_labs. rewrite st_mx. reflexivity. Qed.
  Lemma st_out : out_labs (Ps ++ M :: Ss) (us ++ z :: vs) R = out_labs (Ps ++ Ts ++ Ss) (us ++ xs ++ vs) R.
  Proof.
    unfold out_labs. f_equal. rewrite !map2_app by (auto using st_len). cbn [map2]. rewrite !list_max_app'. change (list_max (?a :: ?b)) with (Nat.max a (list_max b)).
    rewrite st_mx. reflexivity.
  Qed.
  Lemma st_all l : In l (all_labs (Ps ++ M :: Ss) (us ++ z :: vs)) <-> In l (all_labs Ps us) \/ In l L \/ In l (all_labs Ss vs).
  Proof.
    rewrite all_labs_app by auto. unfold all_labs at 2. cbn [map2 concat]. rewrite st_labs, !in_app_iff. reflexivity.
  Qed.
  Lemma st_all' l : In l (all_labs (Ps ++ Ts ++ Ss) (us ++ xs ++ vs)) <-> In l (all_labs Ps us) \/ In l (all_labs Ts xs) \/ In l (all_labs Ss vs).
  Proof. rewrite !all_labs_app by (auto using st_len). rewrite !in_app_iff. reflexivity. Qed.

  (** every label of the first call is attained *)
  Lemma st_attained l : In l (all_labs Ts xs) \/ In l L -> exists t x, In (t, x) (combine Ts xs) /\ In (l, len' l) (combine (operand_labs t x) (shp x)).
  Proof.
    intros H. destruct l as [a|k].
    - assert (Ha : In (LName a) (all_labs Ts xs)).
      { destruct H as [H|H]; auto. apply (all_name Ts xs a st_len). apply term_labs_name in H. destruct Hin as (_ & _ & I & _). apply I. auto. }
      apply in_all_iff in Ha as (t & x & H1 & H2). exists t, x. split; auto. destruct Hin as (F & _). pose proof (Forall2_combine _ _ _ _ _ F H1) as (_ & _ & Hf).
      destruct (Forall2_combine_l _ _ _ _ Hf H2) as [d Hd]. pose proof (Forall2_combine _ _ _ _ _ Hf Hd) as D. cbn in D. subst d. auto.
    - destruct Hin as (_ & _ & _ & _ & _ & At). apply At. destruct H as [H|H]; [|apply labs_dot_iff in H as [H _]; auto].
      apply in_all_iff in H as (t & x & H1 & H2). apply labs_dot_iff in H2 as [H2 _]. apply in_spares in H1. lia.
  Qed.
  Lemma st_sub l : In l L -> In l (all_labs Ts xs).
  Proof. intros H. destruct (st_attained l) as (t & x & H1 & H2); auto. apply in_all_iff. exists t, x. split; auto. eapply in_combine_l; exact H2. Qed.
  Lemma st_dim l : In l (all_labs Ts xs) -> dim_fits len l (len' l).
  Proof.
    intros H. destruct (st_attained l) as (t & x & H1 & H2); auto. destruct st_fits as (_ & F & _).
    pose proof (Forall2_combine _ _ _ _ _ F H1) as (_ & _ & Hf). apply (Forall2_combine _ _ _ _ _ Hf H2).
  Qed.
  Lemma st_dotin k : In (LDot k) (all_labs Ts xs) -> In (LDot k) L.
  Proof.
    intros H. assert (H0 := H). apply st_none in H0. apply labs_dot_iff. split; auto.
    apply in_all_iff in H as (t & x & H1 & H2). apply labs_dot_iff in H2 as [H2 _]. apply in_spares in H1. lia.
  Qed.

  Lemma st_good : good_call len (Ps ++ M :: Ss) R (us ++ z :: vs).
  Proof.
    destruct st_fits as (F1 & F2 & F3). destruct Hall as (_ & HR & HI & HD & HN & HA). pose proof Hin as (G1 & G2 & G3 & G4 & G5 & G6). pose proof Hz as (W & E & _).
    split; [|split; [auto|split; [|split; [auto|split]]]].
    - apply Forall2_app; auto. constructor; auto. split; [auto|]. split; [auto|]. rewrite st_labs, E.
      assert (K : forall l, In l L -> dim_fits len l (len' l)) by (intros l Hl; apply st_dim, st_sub, Hl).
      revert K. generalize L. induction l as [|l ls IH]; intros K; constructor; [apply K; left; auto|apply IH; intros; apply K; right; auto].
    - intros a Ha. pose proof (HI a Ha) as X. rewrite !flat_map_app in X. rewrite flat_map_app. cbn [flat_map]. rewrite !in_app_iff in *. destruct X as [X|[X|X]]; auto.
      right. left. apply Hkeep; auto.
    - intros X. rewrite !concat_app in *. cbn [concat] in X. rewrite !in_app_iff in *. destruct X as [X|[X|X]]; auto.
    - intros k Hk. destruct (HA k) as (t & x & H1 & H2).
      { rewrite !map2_app in * by (auto using st_len). cbn [map2] in Hk. rewrite !list_max_app' in *. change (list_max (?a :: ?b)) with (Nat.max a (list_max b)) in Hk.
        rewrite st_mx in Hk. exact Hk. }
      rewrite !combine_app_same in H1 by (auto using st_len). rewrite combine_app_same by auto. cbn [combine]. rewrite !in_app_iff in H1.
      destruct H1 as [H1|[H1|H1]]; [exists t, x; rewrite in_app_iff; auto| |exists t, x; rewrite in_app_iff; cbn [In]; auto].
      exists M, z. split; [apply in_or_app; right; left; reflexivity|]. rewrite st_labs, E.
      assert (Hl : In (LDot k) (all_labs Ts xs)) by (apply in_all_iff; exists t, x; split; auto; eapply in_combine_l; exact H2).
      assert (Ek : len (LDot k) = len' (LDot k)).
      { pose proof (Forall2_combine _ _ _ _ _ G1 H1) as (_ & _ & Hf). pose proof (Forall2_combine _ _ _ _ _ Hf H2) as D1. pose proof (st_dim _ Hl) as D2. cbn in D1, D2.
        destruct D1 as [D1|D1]; auto. destruct D2 as [D2|D2]; congruence. }
      rewrite Ek. apply st_dotin in Hl. clear -Hl. induction L as [|l ls IH]; [destruct Hl|]. cbn [map combine]. destruct Hl as [->|Hl]; [left; auto|right; auto].
  Qed.

  Hypothesis Hmo : summed (Ps ++ M :: Ss) R (us ++ z :: vs) mo.

  Lemma st_mi l : In l mi -> exists a, l = LName a /\ In a (flat_map term_names Ts) /\ ~ In a (term_names M).
  Proof.
    destruct Hmi as [_ H]. intros Hl. apply H in Hl as [H1 H2]. destruct l as [a|k].
    - exists a. split; auto. split; [apply (all_name Ts xs a st_len); auto|]. intros X. apply H2. apply term_labs_name. auto.
    - destruct H2. apply st_dotin. auto.
  Qed.
  Lemma st_lenPs : length Ss = length vs.
  Proof. destruct st_fits as (_ & _ & F). eapply Forall2_length; exact F. Qed.
  Lemma st_apart l : In l mi -> ~ In l (all_labs Ps us) /\ ~ In l (all_labs Ss vs) /\ ~ In l L /\ ~ In l (out_labs (Ps ++ Ts ++ Ss) (us ++ xs ++ vs) R).
  Proof.
    intros H. apply st_mi in H as (a & -> & H1 & H2). rewrite (all_name Ps us a Hus), (all_name Ss vs a st_lenPs). unfold out_labs. rewrite !term_labs_name.
    pose proof (Hkeep a H1). tauto.
  Qed.
  Lemma st_summed : summed (Ps ++ Ts ++ Ss) R (us ++ xs ++ vs) (mo ++ mi).
  Proof.
    destruct Hmo as [N1 I1]. destruct Hmi as [N2 I2]. split.
    - apply NoDup_app_iff. split; [auto|]. split; [auto|]. intros l H1 H2. apply I1 in H1 as [H1 _]. apply st_all in H1. apply st_apart in H2. tauto.
    - intros l. rewrite in_app_iff, I1, I2, st_all, st_all', st_out. split.
      + intros [[H1 H2]|[H1 H2]]; (split; [|auto]).
        * destruct H1 as [H1|[H1|H1]]; auto using st_sub.
        * auto.
        * assert (Hl : In l mi) by (apply I2; auto). apply st_apart in Hl. tauto.
      + intros [H1 H2]. destruct H1 as [H1|[H1|H1]]; auto. destruct (in_dec slab_dec l L) as [C|C]; auto.
  Qed.

  (** *** the values *)
  Lemma fold_mul_app l m : fold_right mul one (l ++ m) = mul (fold_right mul one l) (fold_right mul one m).
  Proof. rewrite fold_right_app. induction l as [|a l IH]; cbn; [symmetry; apply mul_one|]. rewrite IH. apply mul_assoc. Qed.
  Lemma sum_scaled {X} (f : X -> A) a b l : mul a (mul (fold_right add zero (map f l)) b) = fold_right add zero (map (fun v => mul a (mul (f v) b)) l).
  Proof. induction l as [|v l IH]; cbn; [rewrite zero_l; apply zero_r|]. rewrite distr_r, distr_l, IH. reflexivity. Qed.
  Lemma sum_app l m : fold_right add zero (l ++ m) = add (fold_right add zero l) (fold_right add zero m).
  Proof. rewrite fold_right_app. induction l as [|a l IH]; cbn; [symmetry; apply add_zero|]. rewrite IH. apply add_assoc. Qed.
  Lemma sum_flat {X} (f : X -> list A) l : fold_right add zero (flat_map f l) = fold_right add zero (map (fun v => fold_right add zero (f v)) l).
  Proof. induction l as [|a l IH]; cbn; [reflexivity|]. rewrite sum_app, IH. reflexivity. Qed.

  Lemma st_elements ix jx : (forall l, In l (all_labs Ts xs) -> len' l <> 1 -> ix l = jx l) -> product_at mul zero one ix Ts xs = product_at mul zero one jx Ts xs.
  Proof.
    intros K. unfold product_at. f_equal. destruct Hin as (F & _).
    assert (K' : forall t x, In (t, x) (combine Ts xs) -> element_at zero ix t x = element_at zero jx t x).
    { intros t x H. pose proof (Forall2_combine _ _ _ _ _ F H) as (_ & _ & Hf). unfold element_at.
      match goal with |- match get x ?a with _ => _ end = match get x ?b with _ => _ end => replace b with a; [reflexivity|] end.
      assert (Hl : forall l, In l (operand_labs t x) -> In l (all_labs Ts xs)) by (intros l Hl; apply in_all_iff; eauto). revert Hf Hl. generalize (operand_labs t x) (shp x).
      intros ls s Hf. induction Hf as [|l d ls s D _ IH]; intros Hl; [reflexivity|]. cbn [map2]. f_equal; [|apply IH; intros; apply Hl; right; auto].
      destruct (d =? 1) eqn:E1; [reflexivity|]. apply Nat.eqb_neq in E1. apply K; [apply Hl; left; auto|]. intros C. apply E1. destruct l; cbn in D; [congruence|destruct D; congruence]. }
    clear -K'. revert xs K'. induction Ts as [|t T IH]; intros [|x xs'] K'; try reflexivity. cbn [map2]. f_equal; [apply K'; left; auto|]. apply IH. intros; apply K'; right; auto.
  Qed.

  Notation asg := (assign (lab_eqb str_eqb)).
  Lemma st_inner ix : within len ix L ->
    element_at zero ix M z = fold_right add zero (map (fun v => product_at mul zero one (asg ix mi v) Ts xs) (indices (map len mi))).
  Proof.
    intros Hw. destruct Hz as (_ & E & G). set (ix2 := fun l => if len' l =? 1 then 0 else ix l).
    unfold element_at. rewrite st_labs, E.
    assert (Ei : map2 (fun l d => if d =? 1 then 0 else ix l) L (map len' L) = map ix2 L).
    { clear. induction L as [|l ls IH]; [reflexivity|]. cbn [map map2]. rewrite IH. reflexivity. }
    rewrite Ei. assert (Hw2 : within len' ix2 L).
    { intros l Hl. unfold ix2. destruct (len' l =? 1) eqn:E1; [apply Nat.eqb_eq in E1; lia|]. apply Nat.eqb_neq in E1.
      pose proof (st_dim l (st_sub l Hl)) as D. specialize (Hw l Hl). destruct l; cbn in D; [lia|]. destruct D as [D|D]; [lia|contradiction]. }
    rewrite (G ix2 Hw2).
    assert (El : map len' mi = map len mi).
    { apply map_ext_in. intros l Hl. assert (Hl0 := Hl). destruct Hmi as [_ I]. apply I in Hl as [Hl _]. apply st_dim in Hl. apply st_mi in Hl0 as (a & -> & _). exact Hl. }
    rewrite El. f_equal. apply map_ext. intros v. apply st_elements. intros l Hl H1. unfold assign. destruct (index_of _ l mi); [reflexivity|].
    unfold ix2. apply Nat.eqb_neq in H1. rewrite H1. reflexivity.
  Qed.

  Lemma st_value ix : within len ix (out_labs (Ps ++ M :: Ss) (us ++ z :: vs) R) ->
    fold_right add zero (map (fun v => product_at mul zero one (asg ix mo v) (Ps ++ M :: Ss) (us ++ z :: vs)) (indices (map len mo))) =
    fold_right add zero (map (fun v => product_at mul zero one (asg ix (mo ++ mi) v) (Ps ++ Ts ++ Ss) (us ++ xs ++ vs)) (indices (map len (mo ++ mi)))).
  Proof.
    intros Hw. rewrite map_app, indices_app.
    rewrite (flat_map_concat_map (fun i => map (app i) (indices (map len mi)))), concat_map, map_map, <- flat_map_concat_map, sum_flat. f_equal.
    apply map_ext_in. intros vo Hvo. rewrite map_map. set (ix1 := asg ix mo vo). pose proof st_summed as HS. destruct Hmo as [N1 I1].
    assert (Lvo : length vo = length mo). { apply indices_In in Hvo. apply inb_length in Hvo. rewrite map_length in Hvo. auto. }
    assert (Wo : within len ix1 mo). { apply (within_assign (lab_eqb str_eqb) slab_eq); auto. apply indices_In. auto. }
    assert (W1 : within len ix1 L).
    { intros l Hl. destruct (in_dec slab_dec l mo) as [C|C]; [apply Wo; auto|]. unfold ix1. rewrite (assign_out (lab_eqb str_eqb) slab_eq) by auto. apply Hw.
      destruct (in_dec slab_dec l (out_labs (Ps ++ M :: Ss) (us ++ z :: vs) R)) as [D|D]; auto. destruct C. apply I1. split; auto. apply st_all. auto. }
    unfold product_at at 1. rewrite map2_app by auto. cbn [map2]. rewrite fold_mul_app. cbn [fold_right]. rewrite (st_inner ix1 W1), sum_scaled. f_equal. apply map_ext. intros vi.
    unfold product_at at 2. rewrite !map2_app by (auto using st_len). rewrite !fold_mul_app.
    fold (product_at mul zero one (asg ix (mo ++ mi) (vo ++ vi)) Ps us). fold (product_at mul zero one (asg ix (mo ++ mi) (vo ++ vi)) Ts xs). fold (product_at mul zero one (asg ix (mo ++ mi) (vo ++ vi)) Ss vs).
    fold (product_at mul zero one ix1 Ps us). fold (product_at mul zero one ix1 Ss vs).
    assert (Ea : forall l, asg ix (mo ++ mi) (vo ++ vi) l = asg ix1 mi vi l).
    { intros l. apply (assign_app (lab_eqb str_eqb) slab_eq); auto. intros H1 H2. destruct HS as [N _]. apply NoDup_app_iff in N as (_ & _ & N). apply (N l); auto. }
    f_equal; [|f_equal]; apply product_at_ext; intros l Hl; rewrite Ea.
    - symmetry. apply (assign_out (lab_eqb str_eqb) slab_eq). intros C. apply st_apart in C. tauto.
    - reflexivity.
    - symmetry. apply (assign_out (lab_eqb str_eqb) slab_eq). intros C. apply st_apart in C. tauto.
  Qed.
End Stages.

Section Calls.
  Context (U : unicode) (HU : unicode_ok U) {A : Type} (add mul : A -> A -> A) (zero one : A) (lib : pystr -> list (tensor A) -> result (tensor A)).
  Hypothesis add_comm : forall a b, add a b = add b a.
  Hypothesis add_assoc : forall a b c, add a (add b c) = add (add a b) c.
  Hypothesis Hlib : einsum_contract add mul zero one lib.
  Hypothesis add_zero : forall a, add zero a = a.
  Hypothesis mul_assoc : forall a b c, mul a (mul b c) = mul (mul a b) c.
  Hypothesis mul_one : forall a, mul one a = a.
  Hypothesis distr_l : forall a b c, mul a (add b c) = add (mul a b) (mul a c).
  Hypothesis distr_r : forall a b c, mul (add a b) c = add (mul a c) (mul b c).
  Hypothesis zero_l : forall a, mul zero a = zero.
  Hypothesis zero_r : forall a, mul a zero = zero.

  Lemma fewer_names Ls Ls' : incl (all_names Ls) (all_names Ls') -> length (distinct (all_names Ls')) <= 52 -> length (distinct (all_names Ls)) <= 52.
  Proof.
    intros H H52. etransitivity; [|exact H52]. apply NoDup_incl_length; [apply distinct_NoDup|]. intros s Hs. apply (proj1 (distinct_In _ _)) in Hs. apply (proj2 (distinct_In _ _)). auto.
  Qed.

  Lemma einsum_stages p1 p2 p Lp Lt Ls M R us xs vs len :
    einsum_reads U p1 Lt M -> einsum_reads U p2 (Lp ++ M :: Ls) R -> einsum_reads U p (Lp ++ Lt ++ Ls) R ->
    length Lp = length us -> length Lt = length xs -> length (distinct (all_names (Lp ++ Lt ++ Ls))) <= 52 ->
    good_call len (map to_term (Lp ++ Lt ++ Ls)) (to_term R) (us ++ xs ++ vs) ->
    NoDup (entry_names M) -> length (filter (fun e => match e with EDots => true | _ => false end) M) <= 1 ->
    incl (entry_names M) (all_names Lt) -> (In EDots (concat Lt) -> In EDots M) -> (In EDots M -> In EDots R) ->
    (forall a, In a (all_names Lt) -> In a (all_names (Lp ++ Ls)) \/ In a (entry_names R) -> In a (entry_names M)) ->
    exists z w, einsum_with U lib (map inl xs ++ [inr p1]) = Ok z /\
      einsum_with U lib (map inl (us ++ z :: vs) ++ [inr p2]) = Ok w /\ einsum_with U lib (map inl (us ++ xs ++ vs) ++ [inr p]) = Ok w.
  Proof.
    intros R1 R2 R3 Lu Lx H52 G MN MD MI MT MR MK. rewrite !map_app in G.
    assert (Dn : forall L : list entry, In None (to_term L) <-> In EDots L).
    { intros L. unfold to_term. rewrite in_map_iff. split; [intros [[s|] [H1 H2]]; [discriminate|auto]|intros H; exists EDots; auto]. }
    assert (F : Forall2 (operand_fits len) (map to_term Lt) xs).
    { destruct G as [F _]. apply Forall2_split in F as [_ F]; [|rewrite map_length; auto]. apply Forall2_split in F as [F _]; [auto|rewrite map_length; auto]. }
    assert (Gi : good_call (inner_len len (map to_term Lt) xs) (map to_term Lt) (to_term M) xs).
    { apply (inner_good len _ _ F).
      - rewrite to_term_names. auto.
      - rewrite to_term_names, to_terms_names. auto.
      - unfold term_dots, to_term. clear -MD. revert MD. generalize 1. induction M as [|[s|] M IH]; intros n MD; cbn in *; try lia; auto. destruct n; [lia|]. apply le_n_S, IH. lia.
      - intros H. apply Dn, MT. apply in_concat in H as [t [H1 H2]]. apply in_map_iff in H1 as [e [<- H1]]. apply in_concat. exists e. split; auto. apply Dn. auto. }
    assert (N1 : length (distinct (all_names Lt)) <= 52).
    { eapply fewer_names; [|exact H52]. unfold all_names. rewrite !flat_map_app. intros s Hs. rewrite !in_app_iff. auto. }
    assert (N2 : length (distinct (all_names (Lp ++ M :: Ls))) <= 52).
    { eapply fewer_names; [|exact H52]. unfold all_names in *. rewrite !flat_map_app. cbn [flat_map]. intros s Hs. rewrite !in_app_iff in *. destruct Hs as [Hs|[Hs|Hs]]; auto. }
    destruct (einsum_formula U HU add mul zero one add_comm add_assoc lib p1 _ M _ _ Hlib R1 N1 Gi) as [z [Ez Fz]].
    destruct (summed_exists (map to_term Lt) (to_term M) xs) as [mi Hmi]. specialize (Fz mi Hmi).
    assert (Hu : length (map to_term Lp) = length us) by (rewrite map_length; auto).
    assert (Hk : forall a, In a (flat_map term_names (map to_term Lt)) -> In a (flat_map term_names (map to_term Lp)) \/ In a (flat_map term_names (map to_term Ls)) \/ In a (term_names (to_term R)) -> In a (term_names (to_term M))).
    { intros a. rewrite !to_terms_names, !to_term_names. intros H1 H2. apply MK; auto. unfold all_names in *. rewrite flat_map_app, in_app_iff. tauto. }
    assert (Hd : In None (to_term M) -> In None (to_term R)) by (rewrite !Dn; auto).
    pose proof (st_good add mul zero one len _ _ _ _ _ _ _ _ _ z Hu Gi G Hk Hd mi Fz) as Go.
    destruct (summed_exists (map to_term Lp ++ to_term M :: map to_term Ls) (to_term R) (us ++ z :: vs)) as [mo Hmo].
    pose proof Go as Go'. change (to_term M :: map to_term Ls) with (map to_term (M :: Ls)) in Go'. rewrite <- map_app in Go'.
    destruct (einsum_formula U HU add mul zero one add_comm add_assoc lib p2 _ R _ _ Hlib R2 N2 Go') as [w [Ew Fw]].
    pose proof G as G'. rewrite <- !map_app in G'.
    destruct (einsum_formula U HU add mul zero one add_comm add_assoc lib p _ R _ _ Hlib R3 H52 G') as [w' [Ew' Fw']].
    exists z, w. split; [auto|]. split; [auto|]. rewrite Ew'. f_equal. rewrite !map_app in Fw. cbn [map] in Fw. rewrite !map_app in Fw'.
    pose proof (st_summed add mul zero one len _ _ _ _ _ _ _ _ _ z Hu Gi G Hk mi mo Hmi Fz Hmo) as Hs.
    symmetry. apply (einsum_same add mul zero one len _ _ _ _ _ _ mo (mo ++ mi) w w' (Fw mo Hmo) (Fw' _ Hs)).
    - eapply (st_out add mul zero one); eassumption.
    - destruct G as (_ & G2 & _ & G4 & _). apply term_labs_NoDup; auto.
    - intros ix Hw. eapply st_value; eauto.
  Qed.
End Calls.
