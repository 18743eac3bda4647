(** * The einsum formula does not depend on the names and on the order of summation *)
From Coq Require Import Permutation.
From Verif Require Import Py Tensor Parsing Recipe Ops SpecSem SpecGrammar SpecForms Compile ListFacts TensorFacts StepFacts FrontFacts SpecEinsum Einsum EinsumFacts EinsumFacts2.

(** ** sums over assignments, in any order of the labels *)
Section Reorder.
  Context {X : Type} (eqb : X -> X -> bool) (eqb_eq : forall a b, eqb a b = true <-> a = b).

  Lemma same_map {B} (f g : X -> B) l : map f l = map g l -> forall a, In a l -> f a = g a.
  Proof. induction l as [|b l IH]; intros E a Ha; [destruct Ha|]. cbn in E. injection E as E1 E2. destruct Ha as [<-|Ha]; auto. Qed.

  Lemma assign_in ix l v a : In a l -> length v = length l -> exists k, nth_error l k = Some a /\ index_of eqb a l = Some k /\ assign eqb ix l v a = nth k v 0.
  Proof.
    intros Ha Hl. destruct (index_of_In eqb eqb_eq a l Ha) as [k Ek]. exists k. split; [apply (index_of_Some eqb eqb_eq); exact Ek|].
    split; [exact Ek|]. unfold assign. rewrite Ek. reflexivity.
  Qed.

  (** assigning to [l] the values another assignment has *)
  Lemma assign_self ix l (f : X -> nat) a : In a l -> assign eqb ix l (map f l) a = f a.
  Proof.
    intros Ha. destruct (assign_in ix l (map f l) a Ha (map_length _ _)) as (k & En & Ek & ->).
    assert (Hk : k < length l) by (apply nth_error_Some; congruence).
    rewrite (nth_map_lt f l k 0 a) by exact Hk. rewrite (nth_error_nth _ _ a En). reflexivity.
  Qed.

  Lemma reorder_gen {B} (h : (X -> nat) -> B) len ix l m : NoDup l -> NoDup m -> (forall a, In a l <-> In a m) ->
    (forall i j, (forall a, i a = j a) -> h i = h j) ->
    Permutation (map (fun v => h (assign eqb ix l v)) (indices (map len l)))
                (map (fun v => h (assign eqb ix m v)) (indices (map len m))).
  Proof.
    intros Hn Hm Hlm Hh.
    assert (Hlen : forall k v, In v (indices (map len k)) -> length v = length k).
    { intros k v Hv. apply indices_In, inb_length in Hv. rewrite map_length in Hv. exact Hv. }
    assert (P : Permutation (map (fun v => map (assign eqb ix l v) m) (indices (map len l))) (indices (map len m))).
    { apply NoDup_Permutation.
      - apply NoDup_map_inj; [|apply indices_NoDup]. intros v v' Hv Hv' E.
        rewrite <- (assign_map eqb eqb_eq ix l v), <- (assign_map eqb eqb_eq ix l v') by auto.
        apply map_ext_in. intros a Ha. apply (same_map _ _ _ E). apply Hlm. exact Ha.
      - apply indices_NoDup.
      - intros v. rewrite in_map_iff. split.
        + intros [u [<- Hu]]. apply indices_In. apply indices_In in Hu. apply inb_within. intros a Ha.
          apply (within_assign eqb eqb_eq len ix l u Hn Hu). apply Hlm. exact Ha.
        + intros Hv. exists (map (assign eqb ix m v) l). split.
          * rewrite <- (assign_map eqb eqb_eq ix m v) at 2 by auto. apply map_ext_in. intros a Ha.
            apply assign_self. apply Hlm. exact Ha.
          * apply indices_In. apply inb_within. intros a Ha. apply indices_In in Hv.
            apply (within_assign eqb eqb_eq len ix m v Hm Hv). apply Hlm. exact Ha. }
    apply Permutation_trans with (map (fun v => h (assign eqb ix m v)) (map (fun v => map (assign eqb ix l v) m) (indices (map len l)))); [|apply Permutation_map; exact P].
    rewrite map_map. match goal with |- Permutation ?a ?b => replace b with a; [apply Permutation_refl|] end.
    apply map_ext_in. intros v Hv. apply Hh. intros a.
    destruct (index_of eqb a m) as [k|] eqn:Ek.
    - assert (Ha : In a m) by (apply index_of_Some in Ek; [eapply nth_error_In; eauto|exact eqb_eq]).
      rewrite assign_self by exact Ha. reflexivity.
    - apply (index_of_None eqb eqb_eq) in Ek. rewrite !(assign_out eqb eqb_eq); auto. intros Ha. apply Ek, Hlm, Ha.
  Qed.
End Reorder.

Lemma sum_permutation {A} (add : A -> A -> A) zero l m :
  (forall a b, add a b = add b a) -> (forall a b c, add a (add b c) = add (add a b) c) -> Permutation l m ->
  fold_right add zero l = fold_right add zero m.
Proof.
  intros Hc Ha H. induction H; cbn; [reflexivity|congruence| |congruence]. rewrite !Ha, (Hc y x). reflexivity.
Qed.

Lemma lab_eqb_eq {X} (eqb : X -> X -> bool) (H : forall a b, eqb a b = true <-> a = b) : forall l m, lab_eqb eqb l m = true <-> l = m.
Proof.
  intros [a|j] [b|k]; cbn; try (split; congruence).
  - rewrite H. split; congruence.
  - rewrite Nat.eqb_eq. split; congruence.
Qed.

Section Order.
  Context {X A : Type} (eqb : X -> X -> bool) (eqb_eq : forall a b, eqb a b = true <-> a = b) (add mul : A -> A -> A) (zero one : A).
  Context (add_comm : forall a b, add a b = add b a) (add_assoc : forall a b c, add a (add b c) = add (add a b) c).

  Lemma element_at_ext (ix jx : lab X -> nat) t (x : tensor A) : (forall l, In l (operand_labs t x) -> ix l = jx l) -> element_at zero ix t x = element_at zero jx t x.
  Proof.
    intros H. unfold element_at. match goal with |- match get x ?a with _ => _ end = match get x ?b with _ => _ end => replace b with a; [reflexivity|] end.
    revert H. generalize (operand_labs t x) (shp x). induction l as [|l ls IH]; intros s H; destruct s as [|d s]; cbn; try reflexivity.
    f_equal; [destruct (d =? 1); [reflexivity|apply H; left; reflexivity]|apply IH; intros; apply H; right; assumption].
  Qed.
  Lemma product_at_ext (ix jx : lab X -> nat) : forall Ts (xs : list (tensor A)), (forall l, In l (all_labs Ts xs) -> ix l = jx l) -> product_at mul zero one ix Ts xs = product_at mul zero one jx Ts xs.
  Proof.
    unfold product_at, all_labs. induction Ts as [|t Ts IH]; intros [|x xs] H; cbn in *; try reflexivity.
    f_equal; [apply element_at_ext; intros; apply H; apply in_or_app; left; assumption|apply IH; intros; apply H; apply in_or_app; right; assumption].
  Qed.

  Lemma summed_order (len : lab X -> nat) Ts R (xs : list (tensor A)) ms ms' y : summed Ts R xs ms -> summed Ts R xs ms' ->
    is_einsum eqb add mul zero one len Ts R xs ms y -> is_einsum eqb add mul zero one len Ts R xs ms' y.
  Proof.
    intros [H1 H2] [H1' H2'] (Hw & Hs & Hg). split; [exact Hw|]. split; [exact Hs|]. intros ix Hix. rewrite (Hg ix Hix). f_equal.
    apply sum_permutation; [exact add_comm|exact add_assoc|].
    apply (reorder_gen (lab_eqb eqb) (lab_eqb_eq eqb eqb_eq) (fun i => product_at mul zero one i Ts xs)); [exact H1|exact H1'| |].
    - intros a. rewrite H2, H2'. reflexivity.
    - intros i j E. apply product_at_ext. auto.
  Qed.
End Order.

(** ** renaming *)
Section Rename.
  Context {X Y A : Type} (eqx : X -> X -> bool) (eqy : Y -> Y -> bool)
    (eqx_eq : forall a b, eqx a b = true <-> a = b) (eqy_eq : forall a b, eqy a b = true <-> a = b)
    (add mul : A -> A -> A) (zero one : A)
    (add_comm : forall a b, add a b = add b a) (add_assoc : forall a b c, add a (add b c) = add (add a b) c).
  Context (rho : X -> Y) (rho' : Y -> X).

  Definition map_lab {X Y} (f : X -> Y) (l : lab X) : lab Y := match l with LName a => LName (f a) | LDot k => LDot k end.
  Definition map_term (t : term (X := X)) : term (X := Y) := map (option_map rho) t.

  Lemma map_term_names t : term_names (map_term t) = map rho (term_names t).
  Proof. induction t as [|[a|] t IH]; cbn; [reflexivity| |exact IH]. f_equal. exact IH. Qed.
  Lemma map_term_dots t : term_dots (map_term t) = term_dots t.
  Proof. unfold term_dots. induction t as [|[a|] t IH]; cbn; [reflexivity|exact IH|]. f_equal. exact IH. Qed.
  Lemma map_term_labs e t : term_labs e (map_term t) = map (map_lab rho) (term_labs e t).
  Proof.
    induction t as [|[a|] t IH]; cbn; [reflexivity| |].
    - f_equal. exact IH.
    - rewrite map_app, map_map. f_equal. exact IH.
  Qed.
  Lemma map_spare t (x : tensor A) : spare (map_term t) x = spare t x.
  Proof. unfold spare. rewrite map_term_names, map_length. reflexivity. Qed.
  Lemma map_operand_labs t (x : tensor A) : operand_labs (map_term t) x = map (map_lab rho) (operand_labs t x).
  Proof. unfold operand_labs. rewrite map_spare, map_term_labs. reflexivity. Qed.
  Lemma map_all_labs Ts : forall (xs : list (tensor A)), all_labs (map map_term Ts) xs = map (map_lab rho) (all_labs Ts xs).
  Proof.
    unfold all_labs. induction Ts as [|t Ts IH]; intros [|x xs]; cbn; try reflexivity. rewrite map_app, map_operand_labs, IH. reflexivity.
  Qed.
  Lemma map_spares Ts : forall (xs : list (tensor A)), map2 spare (map map_term Ts) xs = map2 spare Ts xs.
  Proof. induction Ts as [|t Ts IH]; intros [|x xs]; cbn; try reflexivity. rewrite map_spare, IH. reflexivity. Qed.
  Lemma map_out_labs Ts (xs : list (tensor A)) R : out_labs (map map_term Ts) xs (map_term R) = map (map_lab rho) (out_labs Ts xs R).
  Proof. unfold out_labs. rewrite map_spares, map_term_labs. reflexivity. Qed.

  Lemma term_labs_name e (t : term (X := X)) a : In (LName a) (term_labs e t) <-> In a (term_names t).
  Proof.
    unfold term_labs, term_names. rewrite !in_flat_map. split; intros [[b|] [Hb H]]; cbn in H.
    - destruct H as [H|[]]. injection H as ->. exists (Some a). split; [exact Hb|left; reflexivity].
    - apply in_map_iff in H as (k & Hk & _). discriminate.
    - destruct H as [->|[]]. exists (Some a). split; [exact Hb|left; reflexivity].
    - destruct H.
  Qed.

  Context (Ts : list (term (X := X))) (R : term (X := X)) (xs : list (tensor A)) (len : lab X -> nat).
  Context (Hgood : good_call len Ts R xs).
  Context (Hinv : forall a, In a (flat_map term_names Ts) -> rho' (rho a) = a).

  Definition known (l : lab X) : Prop := match l with LName a => In a (flat_map term_names Ts) | LDot _ => True end.
  Lemma known_back l : known l -> map_lab rho' (map_lab rho l) = l.
  Proof. destruct l as [a|k]; cbn; [|reflexivity]. intros H. rewrite Hinv by exact H. reflexivity. Qed.
  Lemma known_operand t (x : tensor A) l : In t Ts -> In l (operand_labs t x) -> known l.
  Proof.
    intros Ht H. destruct l as [a|k]; cbn; [|exact I]. apply term_labs_name in H. apply in_flat_map. eauto.
  Qed.
  Lemma known_all l : In l (all_labs Ts xs) -> known l.
  Proof.
    clear Hgood Hinv. unfold all_labs. intros H. apply in_concat in H as (ls & H1 & H2).
    assert (E : exists t (x : tensor A), In t Ts /\ ls = operand_labs t x).
    { clear H2. clear R. revert xs H1. induction Ts as [|t T IH]; intros [|x x'] H1; cbn in H1; try contradiction.
      destruct H1 as [<-|H1]; [exists t, x; split; [left; reflexivity|reflexivity]|].
      destruct (IH _ H1) as (t' & x'' & Ht & E). exists t', x''. split; [right; exact Ht|exact E]. }
    destruct E as (t & x & Ht & ->). eapply known_operand; eauto.
  Qed.
  Lemma known_out l : In l (out_labs Ts xs R) -> known l.
  Proof.
    intros H. destruct l as [a|k]; cbn; [|exact I]. apply term_labs_name in H. destruct Hgood as (_ & _ & Hi & _). apply Hi, H.
  Qed.
  Lemma map_lab_inj l m : known l -> known m -> map_lab rho l = map_lab rho m -> l = m.
  Proof. intros Hl Hm E. rewrite <- (known_back l Hl), <- (known_back m Hm), E. reflexivity. Qed.

  Definition len' (l : lab Y) : nat := len (map_lab rho' l).
  Lemma len'_known l : known l -> len' (map_lab rho l) = len l.
  Proof. intros H. unfold len'. rewrite known_back by exact H. reflexivity. Qed.

  Lemma Forall2_map_l {B C D} (P : C -> D -> Prop) (f : B -> C) l m : Forall2 (fun b d => P (f b) d) l m -> Forall2 P (map f l) m.
  Proof. induction 1; cbn; constructor; auto. Qed.
  Lemma Forall2_in_l {B D} (P Q : B -> D -> Prop) l m : (forall b d, In b l -> P b d -> Q b d) -> Forall2 P l m -> Forall2 Q l m.
  Proof.
    intros H F. induction F as [|b d l m Hb F IH]; constructor; [apply H; [left; reflexivity|exact Hb]|].
    apply IH. intros; apply H; [right; assumption|assumption].
  Qed.

  Lemma good_rename : good_call len' (map map_term Ts) (map_term R) xs.
  Proof.
    destruct Hgood as (H1 & H2 & H3 & H4 & H5 & H6). split; [|split; [|split; [|split; [|split]]]].
    - apply Forall2_map_l. eapply Forall2_in_l; [|exact H1]. intros t x Ht (Hw & Hd & Hf). split; [exact Hw|]. rewrite map_term_dots. split; [exact Hd|].
      rewrite map_operand_labs. apply Forall2_map_l. eapply Forall2_in_l; [|exact Hf]. intros l d Hl Hld.
      assert (K := known_operand t x l Ht Hl). unfold dim_fits in *. destruct l as [a|k]; cbn [map_lab].
      + rewrite <- (len'_known (LName a) K) in Hld. exact Hld.
      + rewrite <- (len'_known (LDot k) K) in Hld. exact Hld.
    - rewrite map_term_names. apply NoDup_map_inj; [|exact H2]. intros a b Ha Hb E.
      rewrite <- (Hinv a (H3 a Ha)), <- (Hinv b (H3 b Hb)), E. reflexivity.
    - rewrite map_term_names. intros b Hb. apply in_map_iff in Hb as (a & <- & Ha). apply H3 in Ha.
      apply in_flat_map in Ha as (t & Ht & Ha). apply in_flat_map. exists (map_term t). split; [apply in_map; exact Ht|].
      rewrite map_term_names. apply in_map. exact Ha.
    - rewrite map_term_dots. exact H4.
    - intros Hn. apply in_concat in Hn as (t' & Ht' & Hn). apply in_map_iff in Ht' as (t & <- & Ht).
      apply in_map_iff in Hn as (o & Eo & Ho). destruct o; [discriminate|]. apply in_map_iff. exists None. split; [reflexivity|].
      apply H5. apply in_concat. eauto.
    - intros k Hk. rewrite map_spares in Hk. destruct (H6 k Hk) as (t & x & Htx & Hd). exists (map_term t), x. split.
      + clear -Htx. revert xs Htx. induction Ts as [|t' T IH]; intros [|x' xs'] H; cbn in *; try contradiction.
        destruct H as [H|H]; [injection H as -> ->; left; reflexivity|right; apply IH; exact H].
      + rewrite map_operand_labs. change (len' (LDot k)) with (len (LDot k)). clear -Hd. revert Hd. generalize (operand_labs t x) (shp x).
        induction l as [|l ls IH]; intros [|d ds] H; cbn in *; try contradiction.
        destruct H as [H|H]; [injection H as -> ->; left; reflexivity|right; apply IH; exact H].
  Qed.

  Lemma summed_rename ms : summed Ts R xs ms -> summed (map map_term Ts) (map_term R) xs (map (map_lab rho) ms).
  Proof.
    intros [Hn Hi]. assert (Kms : forall l, In l ms -> known l) by (intros l Hl; apply Hi in Hl as [Hl _]; apply known_all, Hl).
    split.
    - apply NoDup_map_inj; [|exact Hn]. intros a b Ha Hb. apply map_lab_inj; apply Kms; assumption.
    - intros l'. rewrite map_all_labs, map_out_labs. split.
      + intros H. apply in_map_iff in H as (l & <- & Hl). assert (K := Kms l Hl). apply Hi in Hl as [Ha Ho]. split; [apply in_map; exact Ha|].
        intros H. apply in_map_iff in H as (m & E & Hm). apply map_lab_inj in E; [subst; contradiction|apply known_out; exact Hm|exact K].
      + intros [Ha Ho]. apply in_map_iff in Ha as (l & <- & Hl). apply in_map. apply Hi. split; [exact Hl|].
        intros H. apply Ho. apply in_map. exact H.
  Qed.

  Lemma element_rename (ix : lab X -> nat) (ix' : lab Y -> nat) t (x : tensor A) : In t Ts -> (forall l, known l -> ix' (map_lab rho l) = ix l) ->
    element_at zero ix' (map_term t) x = element_at zero ix t x.
  Proof.
    intros Ht H. unfold element_at. rewrite map_operand_labs.
    match goal with |- match get x ?a with _ => _ end = match get x ?b with _ => _ end => replace a with b; [reflexivity|] end.
    assert (K : forall l, In l (operand_labs t x) -> known l) by (intros l Hl; eapply known_operand; eauto).
    revert K. generalize (operand_labs t x) (shp x). induction l as [|l ls IH]; intros s K; destruct s as [|d s]; cbn; try reflexivity.
    f_equal; [destruct (d =? 1); [reflexivity|symmetry; apply H, K; left; reflexivity]|apply IH; intros; apply K; right; assumption].
  Qed.

  Lemma product_rename (ix : lab X -> nat) (ix' : lab Y -> nat) : (forall l, known l -> ix' (map_lab rho l) = ix l) ->
    product_at mul zero one ix' (map map_term Ts) xs = product_at mul zero one ix Ts xs.
  Proof.
    intros H. assert (I : incl Ts Ts) by apply incl_refl. revert I. unfold product_at.
    assert (G : forall T x', incl T Ts -> fold_right mul one (map2 (element_at zero ix') (map map_term T) x') = fold_right mul one (map2 (element_at zero ix) T x')).
    { induction T as [|t T IH]; intros [|x x'] HT; cbn; try reflexivity. f_equal; [apply element_rename; [apply HT; left; reflexivity|exact H]|].
      apply IH. intros a Ha. apply HT. right. exact Ha. }
    apply G.
  Qed.

  Lemma is_einsum_rename ms ms' y : summed Ts R xs ms -> summed (map map_term Ts) (map_term R) xs ms' ->
    is_einsum eqy add mul zero one len' (map map_term Ts) (map_term R) xs ms' y -> is_einsum eqx add mul zero one len Ts R xs ms y.
  Proof.
    intros Hms Hms' H. apply (summed_order eqy eqy_eq add mul zero one add_comm add_assoc len' _ _ _ _ (map (map_lab rho) ms) y Hms') in H; [|apply summed_rename, Hms].
    destruct H as (Hw & Hs & Hg). rewrite map_out_labs in Hs, Hg.
    assert (Ko : forall l, In l (out_labs Ts xs R) -> known l) by (intros; apply known_out; assumption).
    assert (Km : forall l, In l ms -> known l) by (intros l Hl; apply Hms in Hl as [Hl _]; apply known_all, Hl).
    split; [exact Hw|]. split; [rewrite Hs, map_map; apply map_ext_in; intros l Hl; apply len'_known, Ko, Hl|].
    intros ix Hix. specialize (Hg (fun l => ix (map_lab rho' l))). rewrite map_map in Hg.
    rewrite (map_ext_in (fun l => ix (map_lab rho' (map_lab rho l))) ix) in Hg by (intros l Hl; rewrite known_back by (apply Ko, Hl); reflexivity).
    rewrite Hg.
    - f_equal. f_equal. rewrite map_map. rewrite (map_ext_in (fun l => len' (map_lab rho l)) len) by (intros l Hl; apply len'_known, Km, Hl).
      apply map_ext_in. intros v Hv. apply product_rename. intros l Hl. unfold assign.
      rewrite (index_of_map (lab_eqb eqx) (lab_eqb eqy) (map_lab rho) l ms).
      + destruct (index_of (lab_eqb eqx) l ms); [reflexivity|]. rewrite known_back by exact Hl. reflexivity.
      + intros m Hm. destruct (lab_eqb eqx l m) eqn:E.
        * apply (lab_eqb_eq eqx eqx_eq) in E. subst. apply (lab_eqb_eq eqy eqy_eq). reflexivity.
        * destruct (lab_eqb eqy (map_lab rho l) (map_lab rho m)) eqn:E'; [|reflexivity]. exfalso.
          apply (lab_eqb_eq eqy eqy_eq) in E'. apply map_lab_inj in E'; [|exact Hl|apply Km, Hm]. subst.
          assert (lab_eqb eqx m m = true) by (apply (lab_eqb_eq eqx eqx_eq); reflexivity). congruence.
    - intros l' Hl'. apply in_map_iff in Hl' as (l & <- & Hl). unfold len'. rewrite known_back by (apply Ko, Hl). apply Hix, Hl.
  Qed.
End Rename.
