(** * Patterns that do the same have the same right side: the functions of einops *)
From Verif Require Import Py Tensor ListFacts TensorFacts SpecSem SpecGrammar SpecPattern SpecOps SpecDistinct Parsing Recipe Ops Backends Api StepFacts ReduceFacts FrontFacts3 MainFacts MainFacts3 ApiFacts ApiFacts2 ApiFacts4 EinsumAlike DistinctFacts.

Definition head_red {A} (vs : list A) : result A := match vs with [v] => Ok v | _ => Err BackendError end.

Section Groups.
  Context {A : Type} (gl gr : list (list label)) (len : label -> nat).

  Lemma moves_heads (x y : tensor A) : missing gl gr = [] -> wf x -> shp x = gshape len gl -> moves gl gr len x y -> reduces head_red gl gr len x y.
  Proof.
    intros E W S (Wy & Sy & G). split; [exact Wy|]. split; [exact Sy|]. intros ix Hix. rewrite E. unfold elements. cbn.
    pose proof (proj1 (missing_nil gl gr) E) as I.
    assert (Wi : within len ix (concat gl)) by (intros c Hc; apply Hix, I, Hc).
    destruct (get_wf x (gindex len ix gl) W) as [v Hv]; [rewrite S; apply inb_gindex; exact Wi|].
    exists [v], v. split; [|split; [reflexivity|]].
    - cbn. change (fun a => ix a) with ix. rewrite <- Hv. reflexivity.
    - rewrite G, Hv; [reflexivity|]. intros c Hc. apply in_app_or in Hc as [Hc|Hc]; auto.
  Qed.
  Lemma moves_back (x y : tensor A) : wf x -> shp x = gshape len gl -> moves gl gr len x y -> moves gr gl len y x.
  Proof.
    intros W S (Wy & Sy & G). split; [exact W|]. split; [exact S|]. intros ix Hix. symmetry. apply G. intros c Hc. apply Hix. apply in_or_app. apply in_app_or in Hc. tauto.
  Qed.
  Lemma moves_ex (x : tensor A) : NoDup (concat gr) -> incl (concat gl) (concat gr) -> incl (concat gr) (concat gl) -> wf x -> shp x = gshape len gl -> exists y, moves gl gr len x y.
  Proof.
    intros N I I' W S. destruct (grepr_make gr len (fun ix => getr x (gindex len ix gl)) N) as [y Hy].
    - intros i j E. f_equal. apply gindex_same. intros c Hc. apply E, I, Hc.
    - intros i Hi. apply getr_wf; [exact W|]. rewrite S. apply inb_gindex. intros c Hc. apply Hi, I, Hc.
    - exists y. apply moves_grepr; auto.
  Qed.
End Groups.

Lemma moves_self {A} gl len (x : tensor A) : wf x -> shp x = gshape len gl -> moves gl gl len x x.
Proof. intros W S. split; [exact W|]. split; [exact S|]. reflexivity. Qed.
Lemma moves_fun {A} gl gr len (x y y' : tensor A) : NoDup (concat gr) -> incl (concat gl) (concat gr) -> moves gl gr len x y -> moves gl gr len x y' -> y = y'.
Proof. intros N I H H'. apply moves_grepr in H; auto. apply moves_grepr in H'; auto. eapply (grepr_unique label_eqb label_eqb_eq); eauto. Qed.

(** two right sides that give the same results when every axis is only moved *)
Lemma moved_apart {A} (a b : A) gl gr gr' len : a <> b -> NoDup (concat gl) -> NoDup (concat gr) -> NoDup (concat gr') ->
  missing gl gr = [] -> missing gl gr' = [] -> incl (concat gr) (concat gl) -> incl (concat gr') (concat gl) -> (forall c, In c (concat gl) -> 2 <= len c) ->
  (forall x : tensor A, wf x -> shp x = gshape len gl -> exists y, moves gl gr len x y /\ moves gl gr' len x y) -> gr = gr'.
Proof.
  intros Hab Nl Nr Nr' M M' I I' B H.
  eapply (told_apart a b head_red head_red gl gr gr' len Nl Nr Nr' I I' B).
  - rewrite M. cbn. intros [|k] [|m] u v E; try (cbn in E; lia). cbn. congruence.
  - intros idx _. destruct (H (hot a b (gshape len gl) idx) (hot_wf a b _ _) eq_refl) as (y & H1 & H2). exists y.
    split; apply moves_heads; auto using hot_wf.
Qed.

Section Calls.
  Context {A : Type} (r : runtime A) (Hok : runtime_ok r).
  Notation U := (rt_unicode r).
  Notation f := (rt_framework r).
  Let HU : unicode_ok U := ro_unicode r Hok.
  Context (a b : A).

  Section One.
    Context (w : role) (p : pystr) (s : list (pystr * Z)) (shape : list nat) (L R : expr) (e : nat) (len : label -> nat).
    Hypothesis Hc : call_ok U w p s shape L R e len.
    Lemma ok_gl : NoDup (concat (left_groups e L)).
    Proof. destruct Hc. eapply gl_NoDup; eauto. Qed.
    Lemma ok_gr : NoDup (concat (right_groups e L R)).
    Proof. destruct Hc. eapply gr_NoDup; eauto. Qed.
    Lemma ok_incl : w <> Repeating -> incl (concat (right_groups e L R)) (concat (left_groups e L)).
    Proof.
      intros Hw c Hin. assert (E : kept (left_groups e L) (right_groups e L R) = concat (right_groups e L R)).
      { eapply (all_kept U HU p s (mkT shape ([] : list A))); eauto. }
      rewrite <- E in Hin. apply in_kept in Hin. tauto.
    Qed.
    Lemma ok_all : w <> Reducing -> missing (left_groups e L) (right_groups e L R) = [].
    Proof. intros Hw. eapply (no_missing U HU p s (mkT shape ([] : list A))); eauto. Qed.
    Lemma ok_shape : gshape len (left_groups e L) = shape.
    Proof. exact (proj1 (co_fits _ _ _ _ _ _ _ _ _ Hc)). Qed.
  End One.

  Section Two.
    Context (p p' : pystr) (s s' : list (pystr * Z)) (shape : list nat) (L R L' R' : expr) (e e' : nat) (len : label -> nat).
    Hypothesis (Ns : NoDup (map fst s)) (Ns' : NoDup (map fst s')) (Rs : no_reserved s) (Rs' : no_reserved s').
    Notation gl := (left_groups e L).
    Notation gr := (right_groups e L R).
    Notation gl' := (left_groups e' L').
    Notation gr' := (right_groups e' L' R').
    Hypothesis Hlen : forall c, In c (concat gl) -> 2 <= len c.

    Lemma rearranges_right : a <> b -> call_ok U Rearranging p s shape L R e len -> call_ok U Rearranging p' s' shape L' R' e' len -> gl = gl' ->
      ((forall x y, wf x -> shp x = shape -> (rearrange r (One x) p s = Ok y <-> rearrange r (One x) p' s' = Ok y)) <-> gr = gr').
    Proof.
      intros Hab Hc Hc' El. pose proof (ok_shape _ _ _ _ _ _ _ _ Hc) as Sh.
      assert (T : Rearranging <> Repeating) by discriminate. assert (T' : Rearranging <> Reducing) by discriminate.
      assert (I1 : forall x y, wf x -> shp x = shape -> (rearrange r (One x) p s = Ok y <-> moves gl gr len x y)).
      { intros x y W S. apply rearrange_iff; auto. rewrite S. exact Hc. }
      assert (I2 : forall x y, wf x -> shp x = shape -> (rearrange r (One x) p' s' = Ok y <-> moves gl gr' len x y)).
      { intros x y W S. rewrite El. apply rearrange_iff; auto. rewrite S. exact Hc'. }
      split.
      - intros H. assert (M : missing gl gr' = []) by (rewrite El; exact (ok_all _ _ _ _ _ _ _ _ Hc' T')).
        apply (moved_apart a b gl gr gr' len); auto; try (eapply ok_gl; eauto); try (eapply ok_gr; eauto); try (eapply ok_all; eauto); try (eapply ok_incl; eauto).
        + rewrite El. exact (ok_incl _ _ _ _ _ _ _ _ Hc' T).
        + intros x W S. destruct (moves_ex gl gr len x) as [y Hy]; auto.
          * eapply ok_gr; eauto.
          * apply missing_nil. eapply ok_all; eauto.
          * eapply ok_incl; eauto.
          * exists y. split; [exact Hy|]. rewrite Sh in S. apply (I2 x y W S), (H x y W S), (I1 x y W S). exact Hy.
      - intros E x y W S. rewrite (I1 x y W S), (I2 x y W S), E. reflexivity.
    Qed.

    Lemma rearranges_left : a <> b -> call_ok U Rearranging p s shape L R e len -> call_ok U Rearranging p' s' shape L' R' e' len -> gr = gr' ->
      ((forall x y, wf x -> shp x = shape -> (rearrange r (One x) p s = Ok y <-> rearrange r (One x) p' s' = Ok y)) <-> gl = gl').
    Proof.
      intros Hab Hc Hc' Er. pose proof (ok_shape _ _ _ _ _ _ _ _ Hc) as Sh. pose proof (ok_shape _ _ _ _ _ _ _ _ Hc') as Sh'.
      assert (T : Rearranging <> Repeating) by discriminate. assert (T' : Rearranging <> Reducing) by discriminate.
      assert (I1 : forall x y, wf x -> shp x = shape -> (rearrange r (One x) p s = Ok y <-> moves gl gr len x y)).
      { intros x y W S. apply rearrange_iff; auto. rewrite S. exact Hc. }
      assert (I2 : forall x y, wf x -> shp x = shape -> (rearrange r (One x) p' s' = Ok y <-> moves gl' gr len x y)).
      { intros x y W S. rewrite Er. apply rearrange_iff; auto. rewrite S. exact Hc'. }
      pose proof (ok_all _ _ _ _ _ _ _ _ Hc T') as M. pose proof (ok_all _ _ _ _ _ _ _ _ Hc' T') as M'. rewrite <- Er in M'.
      pose proof (ok_incl _ _ _ _ _ _ _ _ Hc T) as I. pose proof (ok_incl _ _ _ _ _ _ _ _ Hc' T) as I'. rewrite <- Er in I'.
      split.
      - intros H. apply (moved_apart a b gr gl gl' len); auto; try (eapply ok_gl; eauto); try (eapply ok_gr; eauto); try (apply missing_nil; assumption); try (apply missing_nil; apply missing_nil; assumption); try (apply missing_nil; assumption).
        + intros x W S. destruct (moves_ex gr gl len x) as [y Hy]; auto.
          * eapply ok_gl; eauto.
          * apply missing_nil; exact M.
          * exists y. split; [exact Hy|]. pose proof Hy as (Wy & Sy & _). rewrite Sh in Sy.
            apply moves_back; auto; [congruence|]. apply (I2 y x Wy Sy), (H y x Wy Sy), (I1 y x Wy Sy).
            apply moves_back; auto.
      - intros E x y W S. rewrite (I1 x y W S), (I2 x y W S), E. reflexivity.
    Qed.

    Lemma rearranges_nothing : a <> b -> call_ok U Rearranging p s shape L R e len ->
      ((forall x y, wf x -> shp x = shape -> (rearrange r (One x) p s = Ok y <-> y = x)) <-> gl = gr).
    Proof.
      intros Hab Hc. pose proof (ok_shape _ _ _ _ _ _ _ _ Hc) as Sh.
      assert (T : Rearranging <> Repeating) by discriminate. assert (T' : Rearranging <> Reducing) by discriminate.
      assert (I1 : forall x y, wf x -> shp x = shape -> (rearrange r (One x) p s = Ok y <-> moves gl gr len x y)).
      { intros x y W S. apply rearrange_iff; auto. rewrite S. exact Hc. }
      pose proof (ok_all _ _ _ _ _ _ _ _ Hc T') as M. pose proof (ok_incl _ _ _ _ _ _ _ _ Hc T) as I.
      split.
      - intros H. apply (moved_apart a b gl gl gr len); auto; try (eapply ok_gl; eauto); try (eapply ok_gr; eauto); try (apply missing_nil; apply incl_refl); try apply incl_refl.
        intros x W S. exists x. split; [apply moves_self; auto|]. apply (I1 x x W); [congruence|]. apply (H x x W); congruence.
      - intros E x y W S. rewrite (I1 x y W S), <- E. assert (X : moves gl gl len x x) by (apply moves_self; auto; congruence). split.
        + intros Hm. eapply (moves_fun gl gl len x); eauto; [eapply ok_gl; eauto|apply incl_refl].
        + intros ->. exact X.
    Qed.

    Lemma reduces_right op : builtin op -> reduction_fits r op -> float_if_mean r op -> has_reduction f op = true -> notices (rt_red r op) a b ->
      call_ok U Reducing p s shape L R e len -> call_ok U Reducing p' s' shape L' R' e' len -> gl = gl' ->
      ((forall x y, wf x -> shp x = shape -> (reduce r (One x) p (RStr op) s = Ok y <-> reduce r (One x) p' (RStr op) s' = Ok y)) <-> gr = gr').
    Proof.
      intros Hb Hfit Hmean Hhas [Hab Hno] Hc Hc' El. pose proof (ok_shape _ _ _ _ _ _ _ _ Hc) as Sh.
      assert (Hs : str_mem op reductions = true) by (apply str_mem_In; exact Hb).
      assert (T : Reducing <> Repeating) by discriminate.
      assert (I1 : forall x y, wf x -> shp x = shape -> (reduce r (One x) p (RStr op) s = Ok y <-> (missing gl gr = [] /\ moves gl gr len x y) \/ (missing gl gr <> [] /\ has_reduction f op = true /\ reduces (rt_red r op) gl gr len x y))).
      { intros x y W S. apply reduce_iff; auto. rewrite S. exact Hc. }
      assert (I2 : forall x y, wf x -> shp x = shape -> (reduce r (One x) p' (RStr op) s' = Ok y <-> (missing gl gr' = [] /\ moves gl gr' len x y) \/ (missing gl gr' <> [] /\ has_reduction f op = true /\ reduces (rt_red r op) gl gr' len x y))).
      { intros x y W S. rewrite El. apply reduce_iff; auto. rewrite S. exact Hc'. }
      pose proof (ok_gl _ _ _ _ _ _ _ _ Hc) as Nl. pose proof (ok_gr _ _ _ _ _ _ _ _ Hc) as Nr. pose proof (ok_gr _ _ _ _ _ _ _ _ Hc') as Nr'.
      pose proof (ok_incl _ _ _ _ _ _ _ _ Hc T) as I. pose proof (ok_incl _ _ _ _ _ _ _ _ Hc' T) as I'. rewrite <- El in I'.
      split.
      - intros H. set (red := if missing gl gr then head_red else rt_red r op). set (red' := if missing gl gr' then head_red else rt_red r op).
        (* both reduce or none does *)
        assert (Ex : forall idx, inb (gshape len gl) idx = true -> exists y, reduce r (One (hot a b (gshape len gl) idx)) p (RStr op) s = Ok y).
        { intros idx Hin. apply reduce_accepts; auto using hot_wf. split; [exact Rs|]. exists L, R, e, len.
          split; [cbn; rewrite Sh; exact Hc|]. cbv zeta. intros Hm. split; [exact Hhas|]. intros ix Hix.
          destruct (gindex_onto len gl idx Nl Hin) as (ix0 & W0 & <-).
          destruct (agree_dec gr ix0 ix) as [X|X].
          - destruct (hot_at a b gl gr len Nl I ix0 W0 ix Hix X) as (k & m & E & _). rewrite E. destruct (Hno k m) as (u & v & _ & E2 & _). eauto.
          - rewrite (cold_at a b gl gr len Nl I ix0 W0 ix Hix X).
            destruct (hot_at a b gl gr len Nl I ix0 W0 ix0) as (k & m & _ & <-); [intros c Hcc; apply W0; auto|auto|].
            destruct (Hno k m) as (u & v & E2 & _). eauto. }
        assert (Both : forall idx, inb (gshape len gl) idx = true -> exists y, reduces red gl gr len (hot a b (gshape len gl) idx) y /\ reduces red' gl gr' len (hot a b (gshape len gl) idx) y).
        { intros idx Hin. destruct (Ex idx Hin) as [y Hy]. exists y. pose proof (proj1 (H _ y (hot_wf a b _ _) Sh) Hy) as Hy'.
          apply (I1 _ y (hot_wf a b _ _) Sh) in Hy. apply (I2 _ y (hot_wf a b _ _) Sh) in Hy'. split.
          - unfold red. destruct Hy as [(E & Hy)|(E & _ & Hy)]; [pose proof (moves_heads gl gr len _ y E (hot_wf a b _ _) eq_refl Hy) as K; destruct (missing gl gr); [exact K|discriminate]|destruct (missing gl gr); [congruence|exact Hy]].
          - unfold red'. destruct Hy' as [(E & Hy')|(E & _ & Hy')]; [pose proof (moves_heads gl gr' len _ y E (hot_wf a b _ _) eq_refl Hy') as K; destruct (missing gl gr'); [exact K|discriminate]|destruct (missing gl gr'); [congruence|exact Hy']]. }
        assert (Sg : gshape len gr = gshape len gr').
        { destruct (Both (gindex len (fun _ => 0) gl)) as (y & (_ & S1 & _) & (_ & S2 & _)); [|congruence]. apply inb_gindex. intros c Hcc. specialize (Hlen c Hcc). lia. }
        assert (P : prodn (map len (concat gl)) <> 0).
        { assert (X : inb (map len (concat gl)) (map (fun _ => 0) (concat gl)) = true) by (apply inb_within; intros c Hcc; specialize (Hlen c Hcc); lia). apply ravel_lt in X. lia. }
        pose proof (prod_missing gl len Nl gr Nr I) as P1. pose proof (prod_missing gl len Nl gr' Nr' I') as P2. rewrite <- Sg in P2.
        assert (Q : prodn (map len (missing gl gr)) = prodn (map len (missing gl gr'))).
        { apply (proj1 (Nat.mul_cancel_r _ _ (prodn (gshape len gr)) ltac:(intros Z; rewrite Z in P1; lia))). congruence. }
        assert (Big : forall g, missing gl g <> [] -> prodn (map len (missing gl g)) <> 1).
        { intros g Hg E. destruct (missing gl g) as [|c l] eqn:Em; [congruence|]. assert (Hcc : In c (missing gl g)) by (rewrite Em; left; auto). apply in_missing in Hcc as [Hcc _].
          specialize (Hlen c Hcc). cbn in E. change (len c * prodn (map len l) = 1) in E. apply Nat.eq_mul_1 in E. lia. }
        assert (Same : red = red').
        { unfold red, red'. pose proof (Big gr) as B1. pose proof (Big gr') as B2. destruct (missing gl gr) as [|c l], (missing gl gr') as [|c' l']; auto.
          - exfalso. apply B2; [discriminate|]. rewrite <- Q. reflexivity.
          - exfalso. apply B1; [discriminate|]. rewrite Q. reflexivity. }
        apply (told_apart a b red red' gl gr gr' len Nl Nr Nr' I I' Hlen); [|exact Both].
        rewrite <- Same. unfold red. intros k m u v En. destruct (missing gl gr) as [|c l].
        + cbn in En |- *. destruct k as [|k], m as [|m]; try lia. cbn. congruence.
        + rewrite <- En. intros E1 E2. destruct (Hno k m) as (u' & v' & F1 & F2 & F3). congruence.
      - intros E x y W S. rewrite (I1 x y W S), (I2 x y W S), E. reflexivity.
    Qed.
  End Two.
End Calls.
