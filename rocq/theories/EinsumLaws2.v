(** * einsum of several tensors *)
From Coq Require Import Permutation.
From Verif Require Import Py Tensor ListFacts TensorFacts SpecSem SpecGrammar SpecForms SpecEinsum SpecPattern SpecShape SpecOps SpecElements SpecProducts Parsing Recipe Ops Backends Einsum Api ParseFacts ParseFacts2 ParseFacts3 StepFacts FrontFacts FrontFacts2 FrontFacts3 MainFacts ReduceFacts MainFacts3 RedFacts Laws CallFacts ApiFacts ApiFacts2 ApiFacts3 ApiFacts7 ShapeLaws RelabelLaws PackLaws EinsumFacts EinsumFacts2 EinsumFacts3 EinsumFacts4 EinsumLaws.

(** ** tensors element by element *)
Section Zip.
  Context {A : Type}.
  Implicit Types t u : tensor A.
  Lemma map2_length_same {X Y Z} (f : X -> Y -> Z) l m : length l = length m -> length (map2 f l m) = length l.
  Proof. revert m. induction l as [|a l IH]; intros [|b m] H; try discriminate; auto. cbn. f_equal. apply IH. cbn in H. lia. Qed.
  Lemma nth_map2 {X Y Z} (f : X -> Y -> Z) l : forall m k, length l = length m ->
    nth_error (map2 f l m) k = match nth_error l k, nth_error m k with Some a, Some b => Some (f a b) | _, _ => None end.
  Proof. induction l as [|a l IH]; intros [|b m] [|k] H; try discriminate; auto. cbn. apply IH. cbn in H. lia. Qed.
  Lemma map2_app {X Y Z} (f : X -> Y -> Z) l1 l2 : forall m1 m2, length l1 = length m1 -> map2 f (l1 ++ l2) (m1 ++ m2) = map2 f l1 m1 ++ map2 f l2 m2.
  Proof. induction l1 as [|a l1 IH]; intros [|b m1] m2 H; try discriminate; auto. cbn. f_equal. apply IH. cbn in H. lia. Qed.
  Lemma t_zip_wf (f : A -> A -> A) t u : wf t -> wf u -> shp t = shp u -> wf (t_zip f t u).
  Proof. unfold wf, t_zip. cbn. intros H1 H2 E. rewrite map2_length_same; [exact H1|]. rewrite H1, H2, E. reflexivity. Qed.
  Lemma t_zip_get (f : A -> A -> A) t u i : wf t -> wf u -> shp t = shp u ->
    get (t_zip f t u) i = match get t i, get u i with Some a, Some b => Some (f a b) | _, _ => None end.
  Proof.
    intros H1 H2 E. unfold get, t_zip. cbn [shp dat]. rewrite <- E. destruct (inb (shp t) i); [|reflexivity].
    apply nth_map2. unfold wf in *. congruence.
  Qed.
  Lemma t_full_wf s (a : A) : wf (t_full s a).
  Proof. unfold wf, t_full. cbn. apply repeat_length. Qed.
  Lemma t_full_get s (a : A) i : inb s i = true -> get (t_full s a) i = Some a.
  Proof.
    intros H. destruct (get_wf (t_full s a) i (t_full_wf s a) H) as [b E]. rewrite E. f_equal.
    unfold get, t_full in E. cbn [shp dat] in E. rewrite H in E. apply nth_error_In in E. apply repeat_spec in E. exact E.
  Qed.
  Lemma t_product_get mul (one : A) s ts : Forall (fun t => wf t /\ shp t = s) ts ->
    wf (t_product mul one s ts) /\ shp (t_product mul one s ts) = s /\
    forall i vs, inb s i = true -> Forall2 (fun t v => get t i = Some v) ts vs -> get (t_product mul one s ts) i = Some (fold_right mul one vs).
  Proof.
    induction 1 as [|t ts [Hw Hs] _ [I1 [I2 I3]]].
    - split; [apply t_full_wf|]. split; [reflexivity|]. intros i vs Hi F. inversion F; subst. apply t_full_get; auto.
    - cbn [t_product fold_right]. fold (t_product mul one s ts). split; [apply t_zip_wf; auto; congruence|]. split; [exact Hs|].
      intros i vs Hi F. inversion F as [|? v ? vs' Ev F']; subst. rewrite t_zip_get by (auto; congruence). rewrite Ev, (I3 i vs' Hi F'). reflexivity.
  Qed.
End Zip.

(** ** the labels that are summed over can be listed *)
Lemma summed_exists {A} Ts (R : term (X := pystr)) (xs : list (tensor A)) : exists ms, summed Ts R xs ms.
Proof.
  assert (D : forall l m : lab pystr, {l = m} + {l <> m}).
  { intros l m. destruct (lab_eqb str_eqb l m) eqn:E; [left; apply (lab_eqb_eq str_eqb str_eqb_eq); auto|right; intros ->].
    assert (X : lab_eqb str_eqb m m = true) by (apply (lab_eqb_eq str_eqb str_eqb_eq); auto). congruence. }
  exists (filter (fun l => if in_dec D l (out_labs Ts xs R) then false else true) (nodup D (all_labs Ts xs))).
  split; [apply NoDup_filter, NoDup_nodup|]. intros l. rewrite filter_In, nodup_In. destruct (in_dec D l (out_labs Ts xs R)) as [H|H]; intuition congruence.
Qed.

(** ** the formula determines the tensor *)
Lemma einsum_same {A} (add mul : A -> A -> A) zero one len Ts Ts' (R R' : term (X := pystr)) xs xs' ms ms' (y y' : tensor A) :
  is_einsum str_eqb add mul zero one len Ts R xs ms y -> is_einsum str_eqb add mul zero one len Ts' R' xs' ms' y' ->
  out_labs Ts xs R = out_labs Ts' xs' R' -> NoDup (out_labs Ts xs R) ->
  (forall ix, within len ix (out_labs Ts xs R) ->
     fold_right add zero (map (fun v => product_at mul zero one (assign (lab_eqb str_eqb) ix ms v) Ts xs) (indices (map len ms))) =
     fold_right add zero (map (fun v => product_at mul zero one (assign (lab_eqb str_eqb) ix ms' v) Ts' xs') (indices (map len ms')))) -> y = y'.
Proof.
  intros [W [S G]] [W' [S' G']] E Hn H. apply tensor_ext; auto; [congruence|]. intros idx Hi.
  set (ix := assign (lab_eqb str_eqb) (fun _ => 0) (out_labs Ts xs R) idx).
  assert (Ei : map ix (out_labs Ts xs R) = idx).
  { apply (assign_map (lab_eqb str_eqb) (lab_eqb_eq str_eqb str_eqb_eq)); auto. rewrite S in Hi. pose proof (inb_length _ _ Hi) as X. rewrite map_length in X. auto. }
  assert (Wi : within len ix (out_labs Ts xs R)) by (apply inb_within; rewrite Ei, <- S; auto).
  pose proof (G ix Wi) as X1. rewrite E in Wi. pose proof (G' ix Wi) as X2. rewrite <- E in Wi, X2. rewrite Ei in X1, X2. rewrite X1, X2, (H ix Wi). reflexivity.
Qed.

(** the labels of the right side are distinct *)
Lemma term_labs_NoDup e (t : term (X := pystr)) : NoDup (term_names t) -> term_dots t <= 1 -> NoDup (term_labs e t).
Proof.
  induction t as [|[a|] t IH]; intros Hn Hd; [constructor| |].
  - cbn in Hn. inversion Hn; subst. cbn. constructor; [|apply IH; auto]. intros X. apply (term_labs_name e t a) in X. auto.
  - unfold term_labs. cbn [flat_map]. fold (term_labs e t). cbn in Hn. unfold term_dots in Hd. cbn in Hd. apply NoDup_app_iff.
    split; [|split; [apply IH; auto; unfold term_dots; lia|]].
    + assert (X : NoDup (rev (seq 0 e))) by (apply NoDup_rev, seq_NoDup). induction X as [|k l Hk _ IHl]; [constructor|]. cbn. constructor; auto.
      intros Y. apply in_map_iff in Y as [j [Ej Y]]. congruence.
    + intros l Hl X. apply in_map_iff in Hl as [k [<- _]]. assert (D : term_dots t = 0) by (unfold term_dots; lia). clear -X D.
      induction t as [|[a|] t IH]; [destruct X| |discriminate]. cbn in X. destruct X as [X|X]; [discriminate|]. apply IH; auto.
Qed.

Section Several.
  Context (U : unicode) (HU : unicode_ok U) {A : Type}.
  Context (add mul : A -> A -> A) (zero one : A) (lib : pystr -> list (tensor A) -> result (tensor A)).
  Hypothesis add_comm : forall a b, add a b = add b a.
  Hypothesis add_assoc : forall a b c, add a (add b c) = add (add a b) c.
  Hypothesis Hlib : einsum_contract add mul zero one lib.
  Notation terms ops := (map to_term (map fst ops)).

  Lemma map2_ops {X} (f : term (X := pystr) -> tensor A -> X) (ops : operands A) : map2 f (terms ops) (map snd ops) = map (fun o => f (to_term (fst o)) (snd o)) ops.
  Proof. rewrite map_map. apply map2_maps. Qed.

  (** *** the order of the operands *)
  Section Swap.
    Hypothesis mul_comm : forall a b, mul a b = mul b a.
    Hypothesis mul_assoc : forall a b c, mul a (mul b c) = mul (mul a b) c.

    Lemma fold_permutation l m : Permutation l m -> fold_right mul one l = fold_right mul one m.
    Proof.
      induction 1 as [|a l m _ IH|a b l|l m n _ IH1 _ IH2]; auto; [cbn; congruence| |congruence].
      cbn. rewrite !mul_assoc, (mul_comm b a). reflexivity.
    Qed.
    Lemma list_max_permutation l m : Permutation l m -> list_max l = list_max m.
    Proof. unfold list_max. induction 1; cbn in *; lia. Qed.

    Lemma Forall2_ops (P : term (X := pystr) -> tensor A -> Prop) (ops : operands A) : Forall2 P (terms ops) (map snd ops) <-> Forall (fun o => P (to_term (fst o)) (snd o)) ops.
    Proof.
      induction ops as [|o ops IH]; [split; constructor|]. cbn [map]. split; intros H; inversion H; subst; constructor; tauto.
    Qed.
    Lemma combine_ops (ops : operands A) t x : In (t, x) (combine (terms ops) (map snd ops)) <-> exists o, In o ops /\ t = to_term (fst o) /\ x = snd o.
    Proof.
      induction ops as [|o ops IH]; [split; [intros []|intros [o [[] _]]]|]. cbn [map combine]. split.
      - intros [E|H]; [injection E as <- <-; exists o; repeat split; left; auto|]. apply IH in H as [o' [H1 H2]]. exists o'. split; [right; auto|auto].
      - intros [o' [[<-|H] [-> ->]]]; [left; reflexivity|]. right. apply IH. eauto.
    Qed.

    Lemma good_swap len (ops ops' : operands A) R : Permutation ops ops' -> good_call len (terms ops) R (map snd ops) -> good_call len (terms ops') R (map snd ops').
    Proof.
      intros P (G1 & G2 & G3 & G4 & G5 & G6).
      assert (I : forall o, In o ops <-> In o ops') by (intros o; split; apply Permutation_in; auto; apply Permutation_sym; auto).
      assert (M : list_max (map2 spare (terms ops) (map snd ops)) = list_max (map2 spare (terms ops') (map snd ops'))).
      { rewrite !map2_ops. apply list_max_permutation, Permutation_map. auto. }
      repeat split; auto.
      - apply Forall2_ops. apply Forall2_ops in G1. rewrite Forall_forall in *. intros o Ho. apply G1, I. auto.
      - intros a Ha. apply G3 in Ha. apply in_flat_map in Ha as [t [Ht Ha]]. apply in_flat_map. exists t. split; auto.
        rewrite map_map in *. apply in_map_iff in Ht as [o [<- Ho]]. apply in_map_iff. exists o. split; auto. apply I. auto.
      - intros H. apply G5. apply in_concat in H as [t [Ht Ha]]. apply in_concat. exists t. split; auto.
        rewrite map_map in *. apply in_map_iff in Ht as [o [<- Ho]]. apply in_map_iff. exists o. split; auto. apply I. auto.
      - intros k Hk. rewrite <- M in Hk. destruct (G6 k Hk) as (t & x & H1 & H2). exists t, x. split; auto. apply combine_ops in H1 as [o [Ho E]]. apply combine_ops.
        exists o. split; auto. apply I. auto.
    Qed.

    Lemma in_all_labs (ops : operands A) l : In l (all_labs (terms ops) (map snd ops)) <-> exists o, In o ops /\ In l (operand_labs (to_term (fst o)) (snd o)).
    Proof.
      unfold all_labs. rewrite map2_ops. rewrite in_concat. split.
      - intros [m [H1 H2]]. apply in_map_iff in H1 as [o [<- Ho]]. eauto.
      - intros [o [Ho H]]. exists (operand_labs (to_term (fst o)) (snd o)). split; auto. apply in_map_iff. eauto.
    Qed.

    Lemma einsum_swap p p' (ops ops' : operands A) R len : Permutation ops ops' ->
      einsum_reads U p (map fst ops) R -> einsum_reads U p' (map fst ops') R -> length (distinct (all_names (map fst ops))) <= 52 ->
      good_call len (terms ops) (to_term R) (map snd ops) ->
      exists y, einsum_with U lib (map inl (map snd ops) ++ [inr p]) = Ok y /\ einsum_with U lib (map inl (map snd ops') ++ [inr p']) = Ok y.
    Proof.
      intros P Hr Hr' H52 G. pose proof (good_swap len ops ops' (to_term R) P G) as G'.
      assert (H52' : length (distinct (all_names (map fst ops'))) <= 52).
      { etransitivity; [|exact H52]. apply NoDup_incl_length; [apply distinct_NoDup|]. intros s Hs. apply (proj1 (distinct_In _ _)) in Hs. apply (proj2 (distinct_In _ _)).
        unfold all_names in *. apply in_flat_map in Hs as [l [Hl Hs]]. apply in_flat_map. exists l. split; auto.
        eapply Permutation_in; [|exact Hl]. apply Permutation_sym, Permutation_map. auto. }
      destruct (einsum_formula U HU add mul zero one add_comm add_assoc lib p _ R _ len Hlib Hr H52 G) as [y [Ey Fy]].
      destruct (einsum_formula U HU add mul zero one add_comm add_assoc lib p' _ R _ len Hlib Hr' H52' G') as [y' [Ey' Fy']].
      exists y. split; auto. rewrite Ey'. f_equal.
      destruct (summed_exists (terms ops) (to_term R) (map snd ops)) as [ms Hms].
      assert (O : out_labs (terms ops) (map snd ops) (to_term R) = out_labs (terms ops') (map snd ops') (to_term R)).
      { unfold out_labs. rewrite !map2_ops. f_equal. apply list_max_permutation, Permutation_map. auto. }
      assert (Hms' : summed (terms ops') (to_term R) (map snd ops') ms).
      { destruct Hms as [N H]. split; auto. intros l. rewrite H, <- O, !in_all_labs. split; intros [[o [Ho Hl]] X]; (split; [|auto]); exists o; split; auto;
          eapply Permutation_in; try exact Ho; auto; apply Permutation_sym; auto. }
      symmetry. eapply (einsum_same add mul zero one len _ _ _ _ _ _ ms ms y y' (Fy ms Hms) (Fy' ms Hms') O).
      - destruct G as (_ & G2 & _ & G4 & _). apply term_labs_NoDup; auto.
      - intros ix _. f_equal. apply map_ext. intros v. unfold product_at. rewrite !map2_ops. apply fold_permutation, Permutation_map. auto.
    Qed.
  End Swap.

  (** *** linear in each operand *)
  Section Linear.
    Hypothesis add_zero : forall a, add zero a = a.
    Hypothesis distr_l : forall a b c, mul a (add b c) = add (mul a b) (mul a c).
    Hypothesis distr_r : forall a b c, mul (add a b) c = add (mul a c) (mul b c).

    Lemma element_zip ix (t : term (X := pystr)) (x u : tensor A) : wf x -> wf u -> shp x = shp u ->
      element_at zero ix t (t_zip add x u) = add (element_at zero ix t x) (element_at zero ix t u).
    Proof.
      intros H1 H2 E. unfold element_at, operand_labs, spare. change (shp (t_zip add x u)) with (shp x). rewrite <- E. set (i := map2 _ _ _).
      rewrite t_zip_get by auto. destruct (get x i) as [a|] eqn:Ea.
      - destruct (get_wf u i H2) as [b Eb]; [|rewrite Eb; reflexivity]. unfold get in Ea. rewrite <- E. destruct (inb (shp x) i); auto. discriminate.
      - assert (Eb : get u i = None); [|rewrite Eb; symmetry; apply add_zero].
        destruct (get u i) as [b|] eqn:Eb; auto. unfold get in Eb. destruct (inb (shp u) i) eqn:X; [|discriminate].
        destruct (get_wf x i H1) as [a Ea']; congruence.
    Qed.

    Lemma product_split ix (Ts1 : list (term (X := pystr))) T Ts2 (us : list (tensor A)) x vs : length Ts1 = length us ->
      product_at mul zero one ix (Ts1 ++ T :: Ts2) (us ++ x :: vs) =
      fold_right mul (mul (element_at zero ix T x) (product_at mul zero one ix Ts2 vs)) (map2 (element_at zero ix) Ts1 us).
    Proof.
      intros H. unfold product_at. rewrite map2_app by auto. rewrite fold_right_app. reflexivity.
    Qed.
    Lemma fold_linear l b c : fold_right mul (add b c) l = add (fold_right mul b l) (fold_right mul c l).
    Proof. induction l as [|a l IH]; [reflexivity|]. cbn. rewrite IH. apply distr_l. Qed.
    Lemma sum_linear {X} (f g : X -> A) l : fold_right add zero (map (fun v => add (f v) (g v)) l) = add (fold_right add zero (map f l)) (fold_right add zero (map g l)).
    Proof.
      induction l as [|a l IH]; cbn; [symmetry; apply add_zero|]. rewrite IH. rewrite !add_assoc. f_equal. rewrite <- !add_assoc. f_equal. apply add_comm.
    Qed.

    (** only the shapes decide whether a call is good *)
    Definition shaped (x x' : tensor A) : Prop := (wf x -> wf x') /\ shp x = shp x'.
    Lemma shaped_labs t (x x' : tensor A) : shaped x x' -> operand_labs (X := pystr) t x = operand_labs t x'.
    Proof. intros [_ E]. unfold operand_labs, spare. rewrite E. reflexivity. Qed.
    Lemma shaped_spares (Ts : list (term (X := pystr))) : forall xs xs', Forall2 shaped xs xs' -> map2 spare Ts xs = map2 spare Ts xs'.
    Proof. induction Ts as [|t Ts IH]; intros xs xs' H; [reflexivity|]. destruct H as [|x x' xs xs' [_ E] H]; [reflexivity|]. cbn. f_equal; [unfold spare; rewrite E; reflexivity|]. apply IH; auto. Qed.
    Lemma shaped_all (Ts : list (term (X := pystr))) : forall xs xs', Forall2 shaped xs xs' -> all_labs Ts xs = all_labs Ts xs'.
    Proof.
      unfold all_labs. induction Ts as [|t Ts IH]; intros xs xs' H; [reflexivity|]. destruct H as [|x x' xs xs' E H]; [reflexivity|]. cbn [map2 concat].
      f_equal; [apply shaped_labs; auto|]. apply IH; auto.
    Qed.
    Lemma shaped_good len Ts (R : term (X := pystr)) xs xs' : Forall2 shaped xs xs' -> good_call len Ts R xs -> good_call len Ts R xs'.
    Proof.
      intros H (G1 & G2 & G3 & G4 & G5 & G6). repeat split; auto.
      - clear -H G1. revert Ts G1. induction H as [|x x' xs xs' E H IH]; intros Ts G1; inversion G1 as [|t ? Ts' ? [W [D F]] G1']; subst; constructor; auto.
        split; [apply E; auto|]. split; auto. rewrite <- (shaped_labs t x x' E). destruct E as [_ <-]. exact F.
      - intros k Hk. rewrite <- (shaped_spares Ts xs xs' H) in Hk. destruct (G6 k Hk) as (t & x & H1 & H2). clear -H H1 H2. revert Ts H1.
        induction H as [|a a' xs xs' E H IH]; intros Ts H1; [destruct Ts; destruct H1|]. destruct Ts as [|t0 Ts]; [destruct H1|]. destruct H1 as [H1|H1].
        + injection H1 as -> ->. exists t, a'. split; [left; auto|]. rewrite <- (shaped_labs t x a' E). destruct E as [_ <-]. exact H2.
        + destruct (IH Ts H1) as (t1 & x1 & X1 & X2). exists t1, x1. split; [right; auto|auto].
    Qed.
    Lemma shaped_refl xs : Forall2 shaped xs xs.
    Proof. induction xs; constructor; auto. split; auto. Qed.

    Lemma einsum_linear p Ls1 L Ls2 R us x u vs len : length Ls1 = length us -> wf x -> wf u -> shp x = shp u ->
      einsum_reads U p (Ls1 ++ L :: Ls2) R -> length (distinct (all_names (Ls1 ++ L :: Ls2))) <= 52 ->
      good_call len (map to_term (Ls1 ++ L :: Ls2)) (to_term R) (us ++ x :: vs) ->
      exists y y', einsum_with U lib (map inl (us ++ x :: vs) ++ [inr p]) = Ok y /\ einsum_with U lib (map inl (us ++ u :: vs) ++ [inr p]) = Ok y' /\
        einsum_with U lib (map inl (us ++ t_zip add x u :: vs) ++ [inr p]) = Ok (t_zip add y y').
    Proof.
      intros Hl Wx Wu Es Hr H52 G. set (Ts := map to_term (Ls1 ++ L :: Ls2)) in *.
      assert (S1 : Forall2 shaped (us ++ x :: vs) (us ++ u :: vs)).
      { apply Forall2_app; [apply shaped_refl|]. constructor; [split; auto|apply shaped_refl]. }
      assert (S2 : Forall2 shaped (us ++ x :: vs) (us ++ t_zip add x u :: vs)).
      { apply Forall2_app; [apply shaped_refl|]. constructor; [split; auto; intros _; apply t_zip_wf; auto|apply shaped_refl]. }
      pose proof (shaped_good len Ts (to_term R) _ _ S1 G) as G1. pose proof (shaped_good len Ts (to_term R) _ _ S2 G) as G2.
      destruct (einsum_formula U HU add mul zero one add_comm add_assoc lib p _ R _ len Hlib Hr H52 G) as [y [Ey Fy]].
      destruct (einsum_formula U HU add mul zero one add_comm add_assoc lib p _ R _ len Hlib Hr H52 G1) as [y1 [Ey1 Fy1]].
      destruct (einsum_formula U HU add mul zero one add_comm add_assoc lib p _ R _ len Hlib Hr H52 G2) as [y2 [Ey2 Fy2]].
      exists y, y1. split; auto. split; auto. rewrite Ey2. f_equal. fold Ts in Fy, Fy1, Fy2.
      destruct (summed_exists Ts (to_term R) (us ++ x :: vs)) as [ms Hms].
      assert (O1 : out_labs Ts (us ++ x :: vs) (to_term R) = out_labs Ts (us ++ u :: vs) (to_term R)) by (unfold out_labs; rewrite (shaped_spares Ts _ _ S1); reflexivity).
      assert (O2 : out_labs Ts (us ++ x :: vs) (to_term R) = out_labs Ts (us ++ t_zip add x u :: vs) (to_term R)) by (unfold out_labs; rewrite (shaped_spares Ts _ _ S2); reflexivity).
      assert (M1 : summed Ts (to_term R) (us ++ u :: vs) ms) by (destruct Hms as [N H]; split; auto; rewrite <- O1, <- (shaped_all Ts _ _ S1); exact H).
      assert (M2 : summed Ts (to_term R) (us ++ t_zip add x u :: vs) ms) by (destruct Hms as [N H]; split; auto; rewrite <- O2, <- (shaped_all Ts _ _ S2); exact H).
      destruct (Fy ms Hms) as [W [S V]]. destruct (Fy1 ms M1) as [W1 [S1' V1]]. destruct (Fy2 ms M2) as [W2 [S2' V2]]. rewrite <- O1 in *. rewrite <- O2 in *.
      apply tensor_ext; auto; [apply t_zip_wf; auto; congruence|cbn; congruence|]. intros idx Hi. rewrite S2' in Hi.
      set (out := out_labs Ts (us ++ x :: vs) (to_term R)) in *. set (ix := assign (lab_eqb str_eqb) (fun _ => 0) out idx).
      assert (Ei : map ix out = idx).
      { apply (assign_map (lab_eqb str_eqb) (lab_eqb_eq str_eqb str_eqb_eq)); auto; [destruct G as (_ & N & _ & D & _); apply term_labs_NoDup; auto|].
        pose proof (inb_length _ _ Hi) as X. rewrite map_length in X. auto. }
      assert (Wi : within len ix out) by (apply inb_within; rewrite Ei; auto).
      rewrite t_zip_get by (auto; congruence). rewrite <- Ei. rewrite (V ix Wi), (V1 ix Wi), (V2 ix Wi). f_equal. rewrite <- sum_linear. f_equal. apply map_ext. intros v.
      unfold Ts. rewrite map_app. cbn [map]. rewrite !product_split by (rewrite map_length; auto). rewrite element_zip by auto. rewrite distr_r. apply fold_linear.
    Qed.
  End Linear.
End Several.
