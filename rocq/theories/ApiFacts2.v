(** * Inverses, composition and other laws of the user-facing functions *)
From Verif Require Import Py Tensor ListFacts TensorFacts SpecSem SpecGrammar SpecPattern SpecOps Parsing Compile Recipe Ops Backends Api StepFacts ParseFacts ParseFacts2 ParseFacts3 RecipeFacts InferFacts ApplyFacts FrontFacts FrontFacts2 FrontFacts3 MainFacts MainFacts2 ReduceFacts MainFacts3 CallFacts RelabelFacts Laws ApiFacts.

(** ** groups of axes *)
Lemma no_big l : existsb is_big l = false -> nbig l = 0.
Proof.
  unfold nbig. induction l as [|a l IH]; simpl; auto. destruct (is_big a); simpl; [discriminate|auto].
Qed.
Lemma atoms_labels_shift dots e k k' l : existsb is_big l = false -> atoms_labels dots e k l = atoms_labels dots e k' l.
Proof.
  revert k k'; induction l as [|a l IH]; intros k k' H; auto. cbn [existsb] in H. apply orb_false_iff in H as [H1 H2].
  cbn [atoms_labels]. f_equal; auto. unfold atom_labels. destruct (stands_for_dots dots a); auto. destruct a; auto.
  simpl in H1. apply negb_false_iff in H1. rewrite H1. reflexivity.
Qed.
Lemma groups_shift dots e k k' ex : has_numbers ex = false -> groups dots e k ex = groups dots e k' ex.
Proof.
  unfold has_numbers, atoms. revert k k'; induction ex as [|i ex IH]; intros k k' H; auto. cbn [flat_map] in H.
  rewrite existsb_app in H. apply orb_false_iff in H as [H1 H2].
  cbn [groups]. f_equal; auto. destruct i as [a|l]; cbn [item_groups item_atoms] in *.
  - pose proof (atoms_labels_shift dots e k k' [a] H1) as E. cbn [atoms_labels] in E. rewrite !app_nil_r in E. rewrite E. reflexivity.
  - rewrite (atoms_labels_shift dots e k k' l H1). reflexivity.
Qed.
Lemma has_numbers_nbig ex : has_numbers ex = false -> nbig (atoms ex) = 0.
Proof. apply no_big. Qed.

Lemma right_as_left e L R : has_numbers L = false -> has_dots L = has_dots R -> right_groups e L R = left_groups e R.
Proof. intros H1 H2. unfold right_groups, left_groups. rewrite H2, has_numbers_nbig by auto. reflexivity. Qed.
Lemma right_of e L R M : has_numbers L = has_numbers M -> has_numbers R = false -> has_dots L = has_dots M ->
  right_groups e L R = right_groups e M R.
Proof. intros _ H1 H2. unfold right_groups. rewrite H2. apply groups_shift; auto. Qed.

Lemma plain_key ex : plain ex -> In ell_name (keys ex) -> has_dots ex = true.
Proof.
  intros Hp Hin. unfold keys in Hin. apply in_flat_map in Hin as [a [Ha Hk]]. destruct a as [s|n|]; simpl in Hk.
  - destruct Hk as [->|[]]. contradiction.
  - destruct Hk.
  - apply existsb_exists. exists ADots; auto.
Qed.
Lemma plain_dots L R : plain R -> incl (keys L) (keys R) -> has_dots L = true -> has_dots R = true.
Proof. intros Hp Hi Hd. apply plain_key; auto. apply Hi, has_dots_key; auto. Qed.

Lemma groups_rank U pattern L R e : reads U pattern L R -> no_grouped L -> (has_dots L = false -> e = 0) ->
  rank_fits L (length (left_groups e L)) e.
Proof.
  intros Hr Hg He. unfold rank_fits, left_groups. destruct (has_dots L) eqn:E.
  - pose proof (groups_length e 0 L) as H. pose proof (one_ell L None (keys_NoDup_L U pattern L R Hr) (has_dots_key _ E)) as H1.
    rewrite (Hg E) in H1. destruct H1 as [_ H1]. rewrite H1 in H. lia.
  - rewrite groups_length_plain; auto.
Qed.

Lemma rank_zero L n e : rank_fits L n e -> has_dots L = false -> e = 0.
Proof. unfold rank_fits. destruct (has_dots L); [discriminate|tauto]. Qed.

Lemma atom_dots dots e k a i : In (LDots i) (atom_labels dots e k a) -> stands_for_dots dots a = true.
Proof.
  unfold atom_labels. destruct (stands_for_dots dots a); auto. destruct a as [s|n|]; simpl; try tauto.
  - intros [X|[]]; discriminate.
  - destruct (n =? 1)%Z; simpl; [tauto|]. intros [X|[]]; discriminate.
Qed.
Lemma atoms_dots dots e k l i : In (LDots i) (atoms_labels dots e k l) -> exists a, In a l /\ stands_for_dots dots a = true.
Proof.
  revert k; induction l as [|a l IH]; intros k H; [destruct H|]. cbn [atoms_labels] in H. apply in_app_or in H as [H|H].
  - apply atom_dots in H. exists a; split; auto. left; auto.
  - destruct (IH _ H) as [b [Hb Hs]]. exists b; split; auto. right; auto.
Qed.
Lemma dots_single dots e k ex g i : (forall l a, In (Group l) ex -> In a l -> stands_for_dots dots a = false) ->
  In g (groups dots e k ex) -> In (LDots i) g -> g = [LDots i].
Proof.
  revert k; induction ex as [|it ex IH]; intros k Hg Hin Hi; [destruct Hin|]. cbn [groups] in Hin.
  apply in_app_or in Hin as [Hin|Hin]; [|eapply IH; eauto; intros; eapply Hg; eauto; right; auto].
  destruct it as [a|l]; cbn [item_groups] in Hin.
  - destruct (stands_for_dots dots a) eqn:E.
    + apply in_map_iff in Hin as [x [<- Hx]]. destruct Hi as [->|[]]. reflexivity.
    + destruct Hin as [<-|[]]. apply atom_dots in Hi. congruence.
  - destruct Hin as [<-|[]]. apply atoms_dots in Hi as [a [Ha Hs]]. rewrite (Hg l a) in Hs; auto; [discriminate|left; auto].
Qed.

Lemma left_dots_single e L g i : plain L -> (has_dots L = true -> ~ grouped_dots L) ->
  In g (left_groups e L) -> In (LDots i) g -> g = [LDots i].
Proof.
  intros Hp Hg. apply dots_single. intros l a Hl Ha. destruct (stands_for_dots (has_dots L) a) eqn:E; auto. exfalso.
  assert (Hat : In a (atoms L)) by (unfold atoms; apply in_flat_map; exists (Group l); auto).
  destruct a as [s|n|]; simpl in E; try discriminate.
  - apply andb_true_iff in E as [_ E]. apply str_eqb_eq in E. subst. apply Hp; auto.
  - assert (Hd : has_dots L = true) by (apply existsb_exists; exists ADots; auto).
    apply (Hg Hd). exists l; auto.
Qed.

(** ** calls that give every length *)
Lemma full_call_ok U w pattern sizes L R e len shape : reads U pattern L R -> ident_ok w L R (map fst sizes) ->
  (has_dots R = true -> has_dots L = true) -> (has_dots L = true -> ~ grouped_dots L) -> rank_fits L (length shape) e ->
  plain L -> plain R -> gives_all L R len sizes -> gshape len (left_groups e L) = shape ->
  (forall k n, In (LNum k n) (concat (left_groups e L) ++ concat (right_groups e L R)) -> Z.of_nat (len (LNum k n)) = n) ->
  call_ok U w pattern sizes shape L R e len.
Proof.
  intros Hr Hi Hd Hg Hk HpL HpR [Gd Gn Ga Gl] Hs Hnum.
  assert (Hunk : forall g a, In g (left_groups e L) -> In a g -> unknown (map fst sizes) a = true -> exists i, g = [LDots i]).
  { intros g a Hin Ha Hu. destruct a as [s|i|k n]; simpl in Hu; try discriminate.
    - exfalso. apply negb_true_iff in Hu.
      assert (Hc : In (LName s) (concat (left_groups e L))) by (apply in_concat; eauto).
      unfold left_groups in Hc. rewrite concat_groups in Hc. apply in_atoms_labels in Hc; [|apply (side_L L R Hd)].
      destruct Hc as [Hc1 Hc2].
      assert (X : In s (map fst sizes)).
      { apply Ga; auto. intros ->. destruct Hc2 as [Hc2|Hc2]; [|congruence].
        pose proof (plain_key L HpL Hc1). congruence. }
      apply str_mem_In in X. congruence.
    - exists i. apply (left_dots_single e L); auto. }
  split; auto.
  - intros g Hin. destruct (filter (unknown (map fst sizes)) g) as [|a l] eqn:E; [simpl; lia|].
    assert (Ha : In a (filter (unknown (map fst sizes)) g)) by (rewrite E; left; auto).
    apply filter_In in Ha as [Ha Hu]. destruct (Hunk g a Hin Ha Hu) as [i ->]. simpl in E. inversion E; subst. simpl; lia.
  - split; [|split]; auto.
  - intros g Hin Hne. destruct (filter (unknown (map fst sizes)) g) as [|a l] eqn:E; [congruence|].
    assert (Ha : In a (filter (unknown (map fst sizes)) g)) by (rewrite E; left; auto).
    apply filter_In in Ha as [Ha Hu]. destruct (Hunk g a Hin Ha Hu) as [i ->]. simpl. discriminate.
  - intros [H1 [H2 H3]]. exfalso. apply plain_key in H3; auto. congruence.
Qed.

(** ** meaning of all operations at once *)
Section Outcome.
  Context {A : Type} (r : runtime A) (Hok : runtime_ok r).
  Notation U := (rt_unicode r).
  Notation f := (rt_framework r).
  Implicit Types (x y : tensor A) (pattern : pystr) (sizes : list (pystr * Z)).
  Let HU : unicode_ok U := ro_unicode r Hok.

  Definition outcome (h : bool) (red : list A -> result A) gl gr len x y : Prop :=
    (missing gl gr = [] /\ moves gl gr len x y) \/ (missing gl gr <> [] /\ h = true /\ reduces red gl gr len x y).

  Inductive op_kind pattern sizes : reduction (tensor A) -> role -> (list A -> result A) -> bool -> Prop :=
  | k_rearrange red h : op_kind pattern sizes (RStr s_rearrange) Rearranging red h
  | k_repeat red h : repeat_sizes_ok r pattern sizes -> op_kind pattern sizes (RStr s_repeat) Repeating red h
  | k_reduce s : str_mem s reductions = true -> (one_by_one f s = true -> splits (rt_red r s)) ->
      (s = lit "mean" -> forall t, rt_isf r t = true) ->
      op_kind pattern sizes (RStr s) Reducing (rt_red r s) (has_reduction f s).

  Notation api rd x p s := (api_reduce U (rt_orders r) int_ops (rt_backend r) (One x) p rd s).

  Lemma op_iff_at rd w red h x pattern sizes L R e len y : op_kind pattern sizes rd w red h ->
    NoDup (map fst sizes) -> wf x -> no_reserved sizes -> call_ok U w pattern sizes (shp x) L R e len ->
    (api rd x pattern sizes = Ok y <-> outcome h red (left_groups e L) (right_groups e L R) len x y).
  Proof.
    intros Hk Hn Hw Hres Hc. unfold outcome. destruct Hk as [red h|red h Hs|s H1 H2 H3].
    - assert (Hm : missing (left_groups e L) (right_groups e L R) = []) by (eapply no_missing; eauto; discriminate).
      rewrite (rearrange_iff r Hok x pattern sizes L R e len y) by auto. tauto.
    - assert (Hm : missing (left_groups e L) (right_groups e L R) = []) by (eapply no_missing; eauto; discriminate).
      rewrite (repeat_iff r Hok x pattern sizes L R e len y) by auto. tauto.
    - rewrite (reduce_iff r Hok x pattern s sizes L R e len y) by auto. tauto.
  Qed.

  Lemma op_sound rd w red h x pattern sizes y : op_kind pattern sizes rd w red h ->
    NoDup (map fst sizes) -> wf x -> api rd x pattern sizes = Ok y ->
    no_reserved sizes /\ exists L R e len, call_ok U w pattern sizes (shp x) L R e len.
  Proof.
    intros Hk Hn Hw H. destruct Hk as [red h|red h Hs|s H1 H2 H3].
    - apply rearrange_accepts; eauto.
    - apply repeat_accepts; eauto.
    - eapply reduce_sound; eauto.
  Qed.

  Lemma op_iff rd w red h x pattern sizes y : op_kind pattern sizes rd w red h -> NoDup (map fst sizes) -> wf x ->
    (api rd x pattern sizes = Ok y <-> no_reserved sizes /\ exists L R e len,
       call_ok U w pattern sizes (shp x) L R e len /\ outcome h red (left_groups e L) (right_groups e L R) len x y).
  Proof.
    intros Hk Hn Hw. split.
    - intros H. destruct (op_sound _ _ _ _ _ _ _ _ Hk Hn Hw H) as [Hres [L [R [e [len Hc]]]]].
      split; auto. exists L, R, e, len; split; auto. eapply op_iff_at; eauto.
    - intros [Hres [L [R [e [len [Hc Ho]]]]]]. eapply op_iff_at; eauto.
  Qed.
End Outcome.

(** ** inverses and composition *)
Lemma same_len_call U w pattern sizes shape L R e len L' R' e' len' : unicode_ok U ->
  call_ok U w pattern sizes shape L R e len -> reads U pattern L' R' -> rank_fits L' (length shape) e' ->
  fits len' (left_groups e' L') (right_groups e' L' R') shape sizes ->
  call_ok U w pattern sizes shape L' R' e' len'.
Proof.
  intros HU Hc Hr Hk Hf. destruct (call_only U w pattern sizes shape L R e len HU Hc) as [_ H].
  destruct (H L' R' e' len' Hr Hk Hf) as [-> [-> [-> _]]]. eapply fits_call_ok; eauto.
Qed.

Lemma call_flat U w pattern sizes shape L R e len : call_ok U w pattern sizes shape L R e len -> no_grouped L.
Proof. intros []. apply no_grouped_iff; auto. eapply keys_NoDup_L; eauto. Qed.

(** the second of two calls, applied to the result of the first *)
Lemma next_rank U pattern M R e : reads U pattern M R -> no_grouped M -> (has_dots M = false -> e = 0) ->
  forall len, rank_fits M (length (gshape len (left_groups e M))) e.
Proof. intros Hr Hg He len. unfold gshape. rewrite map_length. eapply groups_rank; eauto. Qed.

Lemma incl_both U (HU : unicode_ok U) (op : operation) pattern sizes (A : Type) (x : tensor A) w L R e len : op_role op = Some w -> w = Rearranging ->
  call_ok U w pattern sizes (shp x) L R e len ->
  incl (concat (left_groups e L)) (concat (right_groups e L R)) /\ incl (concat (right_groups e L R)) (concat (left_groups e L)).
Proof.
  intros Hw -> Hc. split.
  - apply missing_nil. eapply no_missing; eauto. discriminate.
  - intros a Ha. assert (E : kept (left_groups e L) (right_groups e L R) = concat (right_groups e L R)) by (eapply all_kept; eauto; discriminate).
    rewrite <- E in Ha. apply in_kept in Ha. tauto.
Qed.

Section Laws2.
  Context {A : Type} (r : runtime A) (Hok : runtime_ok r).
  Notation U := (rt_unicode r).
  Notation f := (rt_framework r).
  Implicit Types (x y z : tensor A) (pattern : pystr) (sizes : list (pystr * Z)).
  Let HU : unicode_ok U := ro_unicode r Hok.

  Lemma rearrange_permutes x pattern sizes y : NoDup (map fst sizes) -> wf x ->
    rearrange r (One x) pattern sizes = Ok y -> Permutation (dat x) (dat y).
  Proof.
    intros Hn Hw H. destruct (rearrange_moves r Hok x pattern sizes y Hn Hw H) as [L [R [e [len [[Hc _] Hm]]]]].
    destruct (incl_both U HU (OpStr s_rearrange) pattern sizes A x Rearranging L R e len eq_refl eq_refl Hc) as [H1 H2].
    apply (moves_permutes (left_groups e L) (right_groups e L R) len); auto.
    - eapply call_gl_NoDup; eauto.
    - eapply call_gr_NoDup; eauto.
    - symmetry. apply (co_fits _ _ _ _ _ _ _ _ _ Hc).
  Qed.

  (** what two readings of neighbouring calls have in common *)
  Lemma flip_dots w w' p s p' s' sh sh' L R e len e' len' :
    call_ok U w p s sh L R e len -> call_ok U w' p' s' sh' R L e' len' -> has_dots L = has_dots R.
  Proof.
    intros H H'. pose proof (co_dots _ _ _ _ _ _ _ _ _ H) as D. pose proof (co_dots _ _ _ _ _ _ _ _ _ H') as D'.
    destruct (has_dots L), (has_dots R); auto. symmetry; auto.
  Qed.

  Lemma rearrange_inverse x y z p p' s s' L R e len : NoDup (map fst s) -> NoDup (map fst s') -> wf x ->
    rearrange r (One x) p s = Ok y -> rearrange r (One y) p' s' = Ok z ->
    reads U p L R -> reads U p' R L -> rank_fits L (length (shp x)) e ->
    fits len (left_groups e L) (right_groups e L R) (shp x) s ->
    fits len (left_groups e R) (right_groups e R L) (shp y) s' -> z = x.
  Proof.
    intros Hn Hn' Hw H H' Hr Hr' Hk Hf Hf'.
    destruct (rearrange_moves r Hok x p s y Hn Hw H) as [L0 [R0 [e0 [len0 [[Hc0 _] Hm0]]]]].
    assert (Hwy : wf y) by apply Hm0.
    destruct (rearrange_moves r Hok y p' s' z Hn' Hwy H') as [L1 [R1 [e1 [len1 [[Hc1 _] Hm1]]]]].
    assert (Hres : no_reserved s) by (apply (rearrange_accepts r Hok x p s Hn Hw); eauto).
    assert (Hres' : no_reserved s') by (apply (rearrange_accepts r Hok y p' s' Hn' Hwy); eauto).
    pose proof (same_len_call _ _ _ _ _ _ _ _ _ _ _ _ _ HU Hc0 Hr Hk Hf) as Hc.
    destruct (reads_fun U HU p' L1 R1 R L (co_reads _ _ _ _ _ _ _ _ _ Hc1) Hr') as [-> ->].
    pose proof (flip_dots _ _ _ _ _ _ _ _ _ _ _ _ _ _ Hc Hc1) as Hd.
    apply (rearrange_iff r Hok x p s L R e len) in H; auto.
    destruct (co_ident _ _ _ _ _ _ _ _ _ Hc) as [N1 [N2 _]].
    assert (Hsy : shp y = gshape len (left_groups e R)).
    { destruct H as [_ [-> _]]. rewrite right_as_left; auto. }
    assert (Hk' : rank_fits R (length (shp y)) e).
    { rewrite Hsy. eapply next_rank; eauto; [eapply call_flat; eauto|]. rewrite <- Hd. apply (rank_zero _ _ _ Hk). }
    pose proof (same_len_call _ _ _ _ _ _ _ _ _ _ _ _ _ HU Hc1 Hr' Hk' Hf') as Hc'.
    apply (rearrange_iff r Hok y p' s' R L e len) in H'; auto.
    rewrite right_as_left in H, H' by auto.
    eapply moves_fun; [| |exact H'|].
    - eapply call_gl_NoDup; eauto.
    - destruct (incl_both U HU (OpStr s_rearrange) p' s' A y Rearranging R L e len eq_refl eq_refl Hc') as [X _].
      rewrite right_as_left in X by auto. exact X.
    - apply moves_sym; auto. symmetry. apply Hf.
  Qed.

  (** with all lengths given, the flipped call succeeds *)
  Lemma rearrange_inverse_total x y p p' s s' L R e len : NoDup (map fst s) -> wf x ->
    rearrange r (One x) p s = Ok y ->
    reads U p L R -> reads U p' R L -> rank_fits L (length (shp x)) e ->
    fits len (left_groups e L) (right_groups e L R) (shp x) s ->
    plain L -> plain R -> ~ grouped_dots R -> gives_all R L len s' -> no_reserved s' ->
    rearrange r (One y) p' s' = Ok x.
  Proof.
    intros Hn Hw H Hr Hr' Hk Hf HpL HpR Hg Ha Hres'.
    destruct (rearrange_moves r Hok x p s y Hn Hw H) as [L0 [R0 [e0 [len0 [[Hc0 _] Hm0]]]]].
    assert (Hres : no_reserved s) by (apply (rearrange_accepts r Hok x p s Hn Hw); eauto).
    pose proof (same_len_call _ _ _ _ _ _ _ _ _ _ _ _ _ HU Hc0 Hr Hk Hf) as Hc.
    apply (rearrange_iff r Hok x p s L R e len) in H; auto.
    destruct (co_ident _ _ _ _ _ _ _ _ _ Hc) as [N1 [N2 [K1 K2]]].
    assert (Hd : has_dots L = has_dots R).
    { pose proof (co_dots _ _ _ _ _ _ _ _ _ Hc) as D. pose proof (plain_dots L R HpR K1) as D'.
      destruct (has_dots L), (has_dots R); auto. symmetry; auto. }
    rewrite right_as_left in H by auto.
    assert (Hgr : no_grouped R) by (apply no_grouped_iff; auto; eapply keys_NoDup_L; eauto).
    assert (Hsy : gshape len (left_groups e R) = shp y) by (symmetry; apply H).
    assert (Hc' : call_ok U Rearranging p' s' (shp y) R L e len).
    { eapply full_call_ok; eauto.
      - repeat split; auto.
      - rewrite <- Hsy. eapply next_rank; eauto. rewrite <- Hd. apply (rank_zero _ _ _ Hk).
      - intros k n Hin. apply (proj1 (proj2 Hf) k n). rewrite right_as_left in Hin |- * by auto.
        apply in_app_or in Hin. apply in_or_app. tauto. }
    apply (rearrange_iff r Hok y p' s' R L e len); auto.
    - apply Ha.
    - apply H.
    - rewrite right_as_left by auto. apply moves_sym; auto. symmetry. apply Hf.
  Qed.

  Lemma mid_dots w p s sh L M e len : call_ok U w p s sh L M e len -> w <> Reducing -> plain M -> has_dots L = has_dots M.
  Proof.
    intros Hc Hw Hp. pose proof (co_dots _ _ _ _ _ _ _ _ _ Hc) as D.
    assert (K : incl (keys L) (keys M)) by (pose proof (co_ident _ _ _ _ _ _ _ _ _ Hc) as X; destruct w; simpl in X; tauto).
    pose proof (plain_dots L M Hp K) as D'. destruct (has_dots L), (has_dots M); auto. symmetry; auto.
  Qed.

  Lemma rearrange_compose x y z z' p1 p2 p3 s1 s2 s3 L M R e len :
    NoDup (map fst s1) -> NoDup (map fst s2) -> NoDup (map fst s3) -> wf x ->
    rearrange r (One x) p1 s1 = Ok y -> rearrange r (One y) p2 s2 = Ok z -> rearrange r (One x) p3 s3 = Ok z' ->
    reads U p1 L M -> reads U p2 M R -> reads U p3 L R -> plain M -> rank_fits L (length (shp x)) e ->
    fits len (left_groups e L) (right_groups e L M) (shp x) s1 ->
    fits len (left_groups e M) (right_groups e M R) (shp y) s2 ->
    fits len (left_groups e L) (right_groups e L R) (shp x) s3 -> z' = z.
  Proof.
    intros Hn1 Hn2 Hn3 Hw H1 H2 H3 R1 R2 R3 Hp Hk F1 F2 F3.
    destruct (rearrange_moves r Hok x p1 s1 y Hn1 Hw H1) as [? [? [? [? [[C1 _] M1]]]]].
    assert (Hwy : wf y) by apply M1.
    destruct (rearrange_moves r Hok y p2 s2 z Hn2 Hwy H2) as [? [? [? [? [[C2 _] M2]]]]].
    destruct (rearrange_moves r Hok x p3 s3 z' Hn3 Hw H3) as [? [? [? [? [[C3 _] M3]]]]].
    assert (S1 : no_reserved s1) by (apply (rearrange_accepts r Hok x p1 s1 Hn1 Hw); eauto).
    assert (S2 : no_reserved s2) by (apply (rearrange_accepts r Hok y p2 s2 Hn2 Hwy); eauto).
    assert (S3 : no_reserved s3) by (apply (rearrange_accepts r Hok x p3 s3 Hn3 Hw); eauto).
    clear M1 M2 M3.
    pose proof (same_len_call _ _ _ _ _ _ _ _ _ _ _ _ _ HU C1 R1 Hk F1) as K1. clear C1.
    pose proof (same_len_call _ _ _ _ _ _ _ _ _ _ _ _ _ HU C3 R3 Hk F3) as K3. clear C3.
    apply (rearrange_iff r Hok x p1 s1 L M e len) in H1; auto.
    apply (rearrange_iff r Hok x p3 s3 L R e len) in H3; auto.
    pose proof (mid_dots _ _ _ _ _ _ _ _ K1 ltac:(discriminate) Hp) as Hd.
    destruct (co_ident _ _ _ _ _ _ _ _ _ K1) as [N1 [N2 _]].
    destruct (co_ident _ _ _ _ _ _ _ _ _ K3) as [_ [N3 _]].
    rewrite right_as_left in H1 by auto.
    assert (Hsy : shp y = gshape len (left_groups e M)) by apply H1.
    destruct (reads_fun U HU p2 _ _ M R (co_reads _ _ _ _ _ _ _ _ _ C2) R2) as [-> ->].
    assert (Hk2 : rank_fits M (length (shp y)) e).
    { rewrite Hsy. eapply next_rank; eauto; [eapply call_flat; eauto|]. rewrite <- Hd. apply (rank_zero _ _ _ Hk). }
    pose proof (same_len_call _ _ _ _ _ _ _ _ _ _ _ _ _ HU C2 R2 Hk2 F2) as K2. clear C2.
    apply (rearrange_iff r Hok y p2 s2 M R e len) in H2; auto.
    rewrite <- (right_of e L R M) in H2 by congruence.
    destruct (incl_both U HU (OpStr s_rearrange) p1 s1 A x Rearranging L M e len eq_refl eq_refl K1) as [I1 I2].
    destruct (incl_both U HU (OpStr s_rearrange) p3 s3 A x Rearranging L R e len eq_refl eq_refl K3) as [I3 I4].
    rewrite right_as_left in I1, I2 by auto.
    apply (moves_fun (left_groups e L) (right_groups e L R) len x); auto.
    - apply (call_gr_NoDup U p3 s3 x Rearranging L R e len K3).
    - apply (moves_trans _ (left_groups e M) _ _ _ y); auto; intros a Ha; apply in_or_app; auto.
  Qed.

  (** with all lengths given, the direct call succeeds *)
  Lemma rearrange_compose_total x y z p1 p2 p3 s1 s2 s3 L M R e len :
    NoDup (map fst s1) -> NoDup (map fst s2) -> wf x ->
    rearrange r (One x) p1 s1 = Ok y -> rearrange r (One y) p2 s2 = Ok z ->
    reads U p1 L M -> reads U p2 M R -> reads U p3 L R -> plain L -> plain M -> plain R -> rank_fits L (length (shp x)) e ->
    fits len (left_groups e L) (right_groups e L M) (shp x) s1 ->
    fits len (left_groups e M) (right_groups e M R) (shp y) s2 ->
    gives_all L R len s3 -> no_reserved s3 ->
    rearrange r (One x) p3 s3 = Ok z.
  Proof.
    intros Hn1 Hn2 Hw H1 H2 R1 R2 R3 HpL HpM HpR Hk F1 F2 Ha S3.
    destruct (rearrange_moves r Hok x p1 s1 y Hn1 Hw H1) as [? [? [? [? [[C1 _] M1]]]]].
    assert (Hwy : wf y) by apply M1.
    destruct (rearrange_moves r Hok y p2 s2 z Hn2 Hwy H2) as [? [? [? [? [[C2 _] M2]]]]].
    assert (S1 : no_reserved s1) by (apply (rearrange_accepts r Hok x p1 s1 Hn1 Hw); eauto).
    assert (S2 : no_reserved s2) by (apply (rearrange_accepts r Hok y p2 s2 Hn2 Hwy); eauto).
    pose proof (same_len_call _ _ _ _ _ _ _ _ _ _ _ _ _ HU C1 R1 Hk F1) as K1.
    destruct (reads_fun U HU p2 _ _ M R (co_reads _ _ _ _ _ _ _ _ _ C2) R2) as [-> ->].
    pose proof (mid_dots _ _ _ _ _ _ _ _ K1 ltac:(discriminate) HpM) as Hd.
    pose proof (mid_dots _ _ _ _ _ _ _ _ C2 ltac:(discriminate) HpR) as Hd2.
    destruct (co_ident _ _ _ _ _ _ _ _ _ K1) as [N1 [N2 [I1 I2]]].
    destruct (co_ident _ _ _ _ _ _ _ _ _ C2) as [_ [N3 [I3 I4]]].
    assert (K3 : call_ok U Rearranging p3 s3 (shp x) L R e len).
    { eapply full_call_ok; eauto.
      - repeat split; auto; eapply incl_tran; eauto.
      - apply (co_flat _ _ _ _ _ _ _ _ _ K1).
      - apply F1.
      - intros k n Hin. exfalso.
        assert (Hno : forall ex q d, has_numbers ex = false -> ~ In (LNum k n) (concat (groups d e q ex))).
        { intros ex q d Hx Hin2. rewrite concat_groups in Hin2. revert q Hin2. unfold has_numbers in Hx. induction (atoms ex) as [|a l IH]; intros q Hin2; [destruct Hin2|].
          cbn [existsb] in Hx. apply orb_false_iff in Hx as [Hx1 Hx2]. cbn [atoms_labels] in Hin2. apply in_app_or in Hin2 as [Hin2|Hin2]; [|eapply IH; eauto].
          unfold atom_labels in Hin2. destruct (stands_for_dots d a).
          - apply in_map_iff in Hin2 as [? [X _]]; discriminate.
          - destruct a as [t|m|]; simpl in Hin2; try tauto; [destruct Hin2 as [X|[]]; discriminate|].
            simpl in Hx1. apply negb_false_iff in Hx1. rewrite Hx1 in Hin2. destruct Hin2. }
        apply in_app_or in Hin as [Hin|Hin]; [exact (Hno L _ _ N1 Hin)|exact (Hno R _ _ N3 Hin)]. }
    destruct (proj2 (rearrange_accepts r Hok x p3 s3 (ga_distinct _ _ _ _ Ha) Hw)) as [z' Hz]; [split; auto; do 4 eexists; eauto|].
    rewrite Hz. f_equal.
    eapply (rearrange_compose x y z z' p1 p2 p3 s1 s2 s3 L M R e len); eauto; [apply Ha|apply K3].
  Qed.
End Laws2.
