(** * More laws: reducing repeats, reducing rearranged tensors, lists, frameworks *)
From Verif Require Import Py Tensor ListFacts TensorFacts SpecSem SpecGrammar SpecPattern SpecOps Parsing Compile Recipe Ops Backends Api StepFacts ParseFacts ParseFacts2 ParseFacts3 RecipeFacts InferFacts ApplyFacts FrontFacts FrontFacts2 FrontFacts3 MainFacts MainFacts2 ReduceFacts MainFacts3 CallFacts RelabelFacts Laws ApiFacts ApiFacts2.

Lemma right_as_left' e L R : has_numbers R = false -> has_dots L = has_dots R -> right_groups e L R = left_groups e R.
Proof. intros H1 H2. unfold right_groups, left_groups. rewrite H2. apply groups_shift; auto. Qed.

Lemma missing_same gl gm gr : incl (concat gl) (concat gm) -> incl (concat gm) (concat gl) ->
  (missing gl gr = [] <-> missing gm gr = []).
Proof.
  intros H1 H2. rewrite !missing_nil. split; intros H a Ha; apply H; auto.
Qed.

Section Laws3.
  Context {A : Type} (r : runtime A) (Hok : runtime_ok r).
  Notation U := (rt_unicode r).
  Notation f := (rt_framework r).
  Implicit Types (x y z : tensor A) (pattern : pystr) (sizes : list (pystr * Z)).
  Let HU : unicode_ok U := ro_unicode r Hok.

  Lemma reduce_at x pattern s sizes L R e len y : NoDup (map fst sizes) -> wf x ->
    str_mem s reductions = true -> (one_by_one f s = true -> splits (rt_red r s)) ->
    reduce r (One x) pattern (RStr s) sizes = Ok y ->
    reads U pattern L R -> rank_fits L (length (shp x)) e ->
    fits len (left_groups e L) (right_groups e L R) (shp x) sizes ->
    call_ok U Reducing pattern sizes (shp x) L R e len /\
    (missing (left_groups e L) (right_groups e L R) = [] -> moves (left_groups e L) (right_groups e L R) len x y) /\
    (missing (left_groups e L) (right_groups e L R) <> [] -> reduces (rt_red r s) (left_groups e L) (right_groups e L R) len x y).
  Proof.
    intros Hn Hw Hs Hsp H Hr Hk Hf.
    destruct (reduce_reduces r Hok x pattern s sizes y Hn Hw Hs Hsp H) as [L0 [R0 [e0 [len0 [[Hc Hu] [H1 H2]]]]]].
    pose proof (same_len_call _ _ _ _ _ _ _ _ _ _ _ _ _ HU Hc Hr Hk Hf) as Hc'.
    destruct (Hu L R e len Hr Hk Hf) as [-> [-> [-> Hsame]]].
    split; auto. split; intros D.
    - apply (moves_len _ _ len0 len); auto.
    - apply (reduces_len _ _ _ len0 len); auto.
  Qed.

  Lemma repeat_at x pattern sizes L R e len y : NoDup (map fst sizes) -> wf x -> repeat_sizes_ok r pattern sizes ->
    repeat_ r (One x) pattern sizes = Ok y ->
    reads U pattern L R -> rank_fits L (length (shp x)) e ->
    fits len (left_groups e L) (right_groups e L R) (shp x) sizes ->
    call_ok U Repeating pattern sizes (shp x) L R e len /\ moves (left_groups e L) (right_groups e L R) len x y.
  Proof.
    intros Hn Hw Hs H Hr Hk Hf.
    destruct (repeat_moves r Hok x pattern sizes y Hn Hw Hs H) as [L0 [R0 [e0 [len0 [[Hc Hu] H1]]]]].
    pose proof (same_len_call _ _ _ _ _ _ _ _ _ _ _ _ _ HU Hc Hr Hk Hf) as Hc'.
    destruct (Hu L R e len Hr Hk Hf) as [-> [-> [-> Hsame]]].
    split; auto. apply (moves_len _ _ len0 len); auto.
  Qed.

  Lemma rearrange_at x pattern sizes L R e len y : NoDup (map fst sizes) -> wf x ->
    rearrange r (One x) pattern sizes = Ok y ->
    reads U pattern L R -> rank_fits L (length (shp x)) e ->
    fits len (left_groups e L) (right_groups e L R) (shp x) sizes ->
    call_ok U Rearranging pattern sizes (shp x) L R e len /\ moves (left_groups e L) (right_groups e L R) len x y.
  Proof.
    intros Hn Hw H Hr Hk Hf.
    destruct (rearrange_moves r Hok x pattern sizes y Hn Hw H) as [L0 [R0 [e0 [len0 [[Hc Hu] H1]]]]].
    pose proof (same_len_call _ _ _ _ _ _ _ _ _ _ _ _ _ HU Hc Hr Hk Hf) as Hc'.
    destruct (Hu L R e len Hr Hk Hf) as [-> [-> [-> Hsame]]].
    split; auto. apply (moves_len _ _ len0 len); auto.
  Qed.

  Lemma reduce_of_repeat x y z p p' s s' op L R e len : NoDup (map fst s) -> NoDup (map fst s') -> wf x ->
    repeat_sizes_ok r p s -> str_mem op reductions = true ->
    (one_by_one f op = true -> splits (rt_red r op)) -> idempotent_on_copies (rt_red r op) ->
    repeat_ r (One x) p s = Ok y -> reduce r (One y) p' (RStr op) s' = Ok z ->
    reads U p L R -> reads U p' R L -> rank_fits L (length (shp x)) e ->
    fits len (left_groups e L) (right_groups e L R) (shp x) s ->
    fits len (left_groups e R) (right_groups e R L) (shp y) s' ->
    positive_new (left_groups e L) (right_groups e L R) len -> z = x.
  Proof.
    intros Hn Hn' Hw Hs Hop Hsp Hid H H' Hr Hr' Hk Hf Hf' Hpos.
    destruct (repeat_at x p s L R e len y Hn Hw Hs H Hr Hk Hf) as [Hc Hm].
    assert (Hwy : wf y) by apply Hm.
    destruct (reduce_sound r Hok y p' op s' z Hn' Hwy Hop H') as [_ [L1 [R1 [e1 [len1 Hc1]]]]].
    destruct (reads_fun U HU p' L1 R1 R L (co_reads _ _ _ _ _ _ _ _ _ Hc1) Hr') as [-> ->].
    pose proof (flip_dots r _ _ _ _ _ _ _ _ _ _ _ _ _ _ Hc Hc1) as Hd.
    destruct (co_ident _ _ _ _ _ _ _ _ _ Hc) as [N1 _].
    rewrite (right_as_left e L R) in Hm, Hpos by auto.
    assert (Hsy : shp y = gshape len (left_groups e R)) by apply Hm.
    assert (Hk' : rank_fits R (length (shp y)) e).
    { rewrite Hsy. eapply next_rank; eauto; [eapply call_flat; eauto|]. rewrite <- Hd. apply (rank_zero _ _ _ Hk). }
    destruct (reduce_at y p' op s' R L e len z Hn' Hwy Hop Hsp H' Hr' Hk' Hf') as [Hc' [M1 M2]].
    rewrite (right_as_left' e R L) in M1, M2 by auto.
    assert (Hgl : NoDup (concat (left_groups e L))) by (eapply (call_gl_NoDup U p s x); eauto).
    assert (Hgr : NoDup (concat (left_groups e R))) by (eapply (call_gl_NoDup U p' s' y); eauto).
    assert (Hi : incl (concat (left_groups e L)) (concat (left_groups e R))).
    { rewrite <- (right_as_left e L R) by auto. apply missing_nil. eapply no_missing; eauto. discriminate. }
    assert (Hshx : shp x = gshape len (left_groups e L)) by (symmetry; apply Hf).
    destruct (missing (left_groups e R) (left_groups e L)) as [|a l] eqn:E.
    - apply (moves_fun (left_groups e R) (left_groups e L) len y); auto.
      + apply missing_nil; auto.
      + apply moves_sym; auto.
    - apply (reduces_fun (rt_red r op) (left_groups e R) (left_groups e L) len y); auto.
      + apply M2. discriminate.
      + apply reduce_repeat; auto.
  Qed.

  Lemma reduce_of_repeat_total x y p p' s s' op L R e len : NoDup (map fst s) -> wf x ->
    repeat_sizes_ok r p s -> str_mem op reductions = true ->
    (one_by_one f op = true -> splits (rt_red r op)) -> (op = lit "mean" -> forall t, rt_isf r t = true) ->
    has_reduction f op = true -> idempotent_on_copies (rt_red r op) ->
    repeat_ r (One x) p s = Ok y ->
    reads U p L R -> reads U p' R L -> rank_fits L (length (shp x)) e ->
    fits len (left_groups e L) (right_groups e L R) (shp x) s ->
    positive_new (left_groups e L) (right_groups e L R) len ->
    plain L -> plain R -> ~ grouped_dots R -> gives_all R L len s' -> no_reserved s' ->
    reduce r (One y) p' (RStr op) s' = Ok x.
  Proof.
    intros Hn Hw Hs Hop Hsp Hfl Hh Hid H Hr Hr' Hk Hf Hpos HpL HpR Hg Ha Hres.
    destruct (repeat_at x p s L R e len y Hn Hw Hs H Hr Hk Hf) as [Hc Hm].
    assert (Hwy : wf y) by apply Hm.
    destruct (co_ident _ _ _ _ _ _ _ _ _ Hc) as [N1 [K1 K2]].
    pose proof (mid_dots r _ _ _ _ _ _ _ _ Hc ltac:(discriminate) HpR) as Hd.
    rewrite (right_as_left e L R) in Hm, Hpos by auto.
    assert (Hsy : shp y = gshape len (left_groups e R)) by apply Hm.
    assert (Hgr0 : no_grouped R) by (apply no_grouped_iff; auto; eapply keys_NoDup_L; eauto).
    assert (Hc' : call_ok U Reducing p' s' (shp y) R L e len).
    { apply full_call_ok; auto.
      - split; auto.
      - rewrite Hd; auto.
      - rewrite Hsy. eapply next_rank; eauto. rewrite <- Hd. apply (rank_zero _ _ _ Hk).
      - intros k n Hin. apply (proj1 (proj2 Hf) k n). rewrite (right_as_left e L R) by auto. rewrite (right_as_left' e R L) in Hin by auto.
        apply in_app_or in Hin. apply in_or_app. tauto. }
    apply (reduce_iff r Hok y p' op s' R L e len); auto; [apply Ha|].
    rewrite (right_as_left' e R L) by auto.
    assert (Hgl : NoDup (concat (left_groups e L))) by (eapply (call_gl_NoDup U p s x); eauto).
    assert (Hgr : NoDup (concat (left_groups e R))) by (eapply (call_gl_NoDup U p' s' y); eauto).
    assert (Hi : incl (concat (left_groups e L)) (concat (left_groups e R))).
    { rewrite <- (right_as_left e L R) by auto. apply missing_nil. eapply no_missing; eauto. discriminate. }
    assert (Hshx : shp x = gshape len (left_groups e L)) by (symmetry; apply Hf).
    destruct (missing (left_groups e R) (left_groups e L)) as [|a l] eqn:E.
    - left. split; auto. apply moves_sym; auto.
    - right. split; [discriminate|]. split; auto. apply reduce_repeat; auto.
  Qed.

  (** reducing a rearranged tensor *)
  Lemma reduce_of_rearranged x y z z' p1 p2 p3 s1 s2 s3 op L M R e len :
    NoDup (map fst s1) -> NoDup (map fst s2) -> NoDup (map fst s3) -> wf x ->
    str_mem op reductions = true -> (one_by_one f op = true -> splits (rt_red r op)) -> symmetric (rt_red r op) ->
    rearrange r (One x) p1 s1 = Ok y -> reduce r (One y) p2 (RStr op) s2 = Ok z -> reduce r (One x) p3 (RStr op) s3 = Ok z' ->
    reads U p1 L M -> reads U p2 M R -> reads U p3 L R -> plain M -> rank_fits L (length (shp x)) e ->
    fits len (left_groups e L) (right_groups e L M) (shp x) s1 ->
    fits len (left_groups e M) (right_groups e M R) (shp y) s2 ->
    fits len (left_groups e L) (right_groups e L R) (shp x) s3 -> z' = z.
  Proof.
    intros Hn1 Hn2 Hn3 Hw Hop Hsp Hsym H1 H2 H3 R1 R2 R3 Hp Hk F1 F2 F3.
    destruct (rearrange_at x p1 s1 L M e len y Hn1 Hw H1 R1 Hk F1) as [K1 M1].
    assert (Hwy : wf y) by apply M1.
    destruct (reduce_at x p3 op s3 L R e len z' Hn3 Hw Hop Hsp H3 R3 Hk F3) as [K3 [M3 D3]].
    pose proof (mid_dots r _ _ _ _ _ _ _ _ K1 ltac:(discriminate) Hp) as Hd.
    destruct (co_ident _ _ _ _ _ _ _ _ _ K1) as [N1 [N2 _]].
    destruct (co_ident _ _ _ _ _ _ _ _ _ K3) as [N3 _].
    destruct (incl_both U HU (OpStr s_rearrange) p1 s1 A x Rearranging L M e len eq_refl eq_refl K1) as [I1 I2].
    rewrite right_as_left in M1, I1, I2 by auto.
    assert (Hsy : shp y = gshape len (left_groups e M)) by apply M1.
    destruct (reduce_sound r Hok y p2 op s2 z Hn2 Hwy Hop H2) as [_ [L1 [R1' [e1 [len1 C2]]]]].
    destruct (reads_fun U HU p2 L1 R1' M R (co_reads _ _ _ _ _ _ _ _ _ C2) R2) as [-> ->].
    assert (Hk2 : rank_fits M (length (shp y)) e).
    { rewrite Hsy. eapply next_rank; eauto; [eapply call_flat; eauto|]. rewrite <- Hd. apply (rank_zero _ _ _ Hk). }
    destruct (reduce_at y p2 op s2 M R e len z Hn2 Hwy Hop Hsp H2 R2 Hk2 F2) as [K2 [M2 D2]].
    rewrite <- (right_of e L R M) in M2, D2 by congruence.
    assert (I4 : incl (concat (right_groups e L R)) (concat (left_groups e L))).
    { intros a Ha. assert (E : kept (left_groups e L) (right_groups e L R) = concat (right_groups e L R)) by (eapply all_kept; eauto; discriminate).
      rewrite <- E in Ha. apply in_kept in Ha. tauto. }
    assert (Hgr : NoDup (concat (right_groups e L R))) by (eapply (call_gr_NoDup U p3 s3 x); eauto).
    assert (Hgl : NoDup (concat (left_groups e L))) by (eapply (call_gl_NoDup U p3 s3 x); eauto).
    assert (Hgm : NoDup (concat (left_groups e M))) by (eapply (call_gl_NoDup U p2 s2 y); eauto).
    pose proof (missing_same (left_groups e L) (left_groups e M) (right_groups e L R) I1 I2) as HM.
    assert (D : missing (left_groups e L) (right_groups e L R) = [] \/ missing (left_groups e L) (right_groups e L R) <> [])
      by (destruct (missing _ _); [left; auto|right; discriminate]).
    destruct D as [D|D].
    - apply (moves_fun (left_groups e L) (right_groups e L R) len x); auto.
      + apply missing_nil; auto.
      + apply (moves_trans _ (left_groups e M) _ _ _ y); auto; [intros a Ha; apply in_or_app; auto| |apply M2, HM; auto].
        intros a Ha. apply in_or_app; auto.
    - assert (D' : missing (left_groups e M) (right_groups e L R) <> []) by tauto.
      apply (reduces_fun (rt_red r op) (left_groups e L) (right_groups e L R) len x); auto.
      apply (reduces_moved (rt_red r op) (left_groups e L) (left_groups e M) (right_groups e L R) len x y); auto.
  Qed.

  (** nothing to reduce: same as rearrange *)
  Lemma reduce_is_rearrange x y pattern op sizes L R e : NoDup (map fst sizes) -> wf x -> str_mem op reductions = true ->
    reads U pattern L R -> rank_fits L (length (shp x)) e -> (odd_pattern L R -> e = 0) ->
    has_numbers L = false -> incl (keys L) (keys R) ->
    (reduce r (One x) pattern (RStr op) sizes = Ok y <-> rearrange r (One x) pattern sizes = Ok y).
  Proof.
    intros Hn Hw Hop Hr Hk Hodd HnL Hi.
    assert (Hcc : forall L' R' e' len, (call_ok U Reducing pattern sizes (shp x) L' R' e' len <-> call_ok U Rearranging pattern sizes (shp x) L' R' e' len)).
    { intros L' R' e' len. split; intros [a b c d e0 g h i j k]; destruct (reads_fun U HU pattern L' R' L R a Hr) as [-> ->]; split; auto.
      - destruct b as [b1 b2]. repeat split; auto.
      - destruct b as [b1 [b2 [b3 b4]]]. split; auto. }
    split; intros H.
    - destruct (reduce_sound r Hok x pattern op sizes y Hn Hw Hop H) as [Hres [L1 [R1 [e1 [len Hc]]]]].
      pose proof (proj1 (Hcc _ _ _ _) Hc) as Hc'.
      apply (rearrange_iff r Hok x pattern sizes L1 R1 e1 len); auto.
      apply (api_moves U HU (rt_orders r) (ro_orders r Hok) (rt_lib r) (rt_red r) (rt_isf r) (rt_num r) f x pattern sizes Hn Hw Hres (RStr op) Reducing L1 R1 e1 len y (role_of_red op Hop) Hc); auto.
      eapply (no_missing U HU pattern sizes x Rearranging); eauto. discriminate.
    - destruct (rearrange_moves r Hok x pattern sizes y Hn Hw H) as [L1 [R1 [e1 [len [[Hc _] Hm]]]]].
      assert (Hres : no_reserved sizes) by (apply (rearrange_accepts r Hok x pattern sizes Hn Hw); eauto).
      pose proof (proj2 (Hcc _ _ _ _) Hc) as Hc'.
      apply (api_moves U HU (rt_orders r) (ro_orders r Hok) (rt_lib r) (rt_red r) (rt_isf r) (rt_num r) f x pattern sizes Hn Hw Hres (RStr op) Reducing L1 R1 e1 len y (role_of_red op Hop) Hc'); auto.
      eapply (no_missing U HU pattern sizes x Rearranging); eauto. discriminate.
  Qed.
End Laws3.
