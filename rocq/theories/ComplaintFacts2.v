(** * Facts: the messages of pack and unpack are true *)
From Verif Require Import Py ListFacts Tensor TensorFacts SpecGrammar SpecForms SpecEinsum SpecPattern SpecPacking Parsing Recipe Ops Backends Api Packing PackFacts PackFacts2 PackFacts3 PackFacts4 PackFacts5 Messages Complaints SpecComplaints ComplaintFacts.
From Verif Require MessageFacts4.

Lemma says_if_Says c m w : says_if c m = Says w -> c = true /\ w = m.
Proof. destruct c; intros H; [|discriminate]. injection H as <-. auto. Qed.
Lemma and_if_Says {A B} (m : told A) (f : A -> told B) c : and_if m f = Says c -> m = Says c \/ exists a, m = Done a /\ f a = Says c.
Proof. destruct m; cbn; intros H; try discriminate; [right; eauto|left; congruence]. Qed.
Lemma quiet_Says {A} (r : result A) c : quiet r <> Says c.
Proof. destruct r; discriminate. Qed.
Lemma quiet_Done {A} (r : result A) a : quiet r = Done a <-> r = Ok a.
Proof. destruct r; cbn; split; congruence. Qed.

Lemma repeated_split (l : list pystr) : ~ NoDup l -> exists l1 w l2 l3, l = l1 ++ w :: l2 ++ w :: l3.
Proof.
  induction l as [|w l IH]; intros H; [destruct (H (NoDup_nil _))|]. destruct (in_dec str_eq_dec w l) as [Hi|Hi].
  - apply in_split in Hi as (l2 & l3 & ->). exists [], w, l2, l3. reflexivity.
  - destruct IH as (l1 & v & l2 & l3 & ->); [intros Hn; apply H; constructor; assumption|]. exists (w :: l1), v, l2, l3. reflexivity.
Qed.

Lemma analyze_true U p c : analyze_pattern_msg U p = Says c -> true_of_packing U p c.
Proof.
  unfold analyze_pattern_msg. cbv zeta. intros H. exists (str_words U p). split; [apply words_complete|]. set (ws := str_words U p) in *.
  apply and_if_Says in H as [H|[u [E1 H]]].
  { apply says_if_Says in H as [H ->]. apply repeated_split. intros Hn. apply nodup_length_NoDup in Hn. rewrite Hn, Nat.eqb_refl in H. discriminate. }
  apply and_if_Says in H as [H|[u2 [E2 H]]].
  { apply says_if_Says in H as [H ->]. intros Hi. apply negb_true_iff in H. assert (X : str_mem star (nodup str_eq_dec ws) = true); [|congruence].
    apply existsb_exists. exists star. split; [apply nodup_In; exact Hi|apply str_eqb_refl]. }
  apply and_if_Says in H as [H|[u3 [E3 H]]].
  { apply foldT_Says in H as (l1 & w & l2 & acc & El & _ & H). apply says_if_Says in H as [H ->]. apply andb_true_iff in H as [H1 H2].
    split; [rewrite El; apply in_or_app; right; left; reflexivity|]. split.
    - intros ->. change (lit "*") with star in H1. rewrite str_eqb_refl in H1. discriminate.
    - intros Hn. apply check_axis_name_iff in Hn. rewrite Hn in H2. discriminate. }
  apply and_if_Says in H as [H|[n [_ H]]]; [destruct (quiet_Says _ _ H)|discriminate].
Qed.

Lemma analyze_done U p r : unicode_ok U -> analyze_pattern_msg U p = Done r ->
  exists before after, pack_pattern U p before after /\ r = (length before, length after, length before + length after).
Proof.
  intros HU H. assert (E : analyze_pattern U p = Ok r) by (rewrite <- told_analyze, H; reflexivity).
  destruct (analyze_inv U p r HU E) as (b & a & Hp). exists b, a. split; [exact Hp|]. rewrite (analyze_ok U p b a HU Hp) in E. congruence.
Qed.

Section Pieces.
  Context {A : Type} (x : tensor A) (b a : list nat) (n : nat) (Hw : wf x) (Hs : shp x = b ++ [n] ++ a).
  Lemma piece_exists off m : off + prodn m <= n -> exists t, piece_of b a x off m t.
  Proof.
    intros H. destruct (slice_Ok x b n a (Z.of_nat off) (Z.of_nat (off + prodn m)) Hw Hs) as (y & _ & Wy & Sy & Gy).
    rewrite !sb_nat in Sy, Gy by lia. replace (off + prodn m - off) with (prodn m) in * by lia.
    destruct (reshape_piece y b (prodn m) a m Wy Sy eq_refl) as [W G]. exists (mkT (b ++ m ++ a) (dat y)). split; [exact W|]. split; [reflexivity|].
    intros ib im ia H1 H2 H3. rewrite G by assumption. apply Gy; [assumption| |assumption]. apply ravel_lt. exact H2.
  Qed.
  Lemma pieces_exist ms : forall off, off + list_sum (map prodn ms) <= n ->
    exists ts, length ts = length ms /\ forall k m t, nth_error ms k = Some m -> nth_error ts k = Some t -> piece_of b a x (off + offset ms k) m t.
  Proof.
    induction ms as [|m ms IH]; intros off H.
    - exists []. split; [reflexivity|]. intros [|k] m t E; discriminate.
    - cbn [map list_sum fold_right] in H. destruct (piece_exists off m) as [t Ht]; [unfold list_sum in H; lia|].
      destruct (IH (off + prodn m)) as (ts & L & P); [unfold list_sum in *; lia|]. exists (t :: ts). split; [cbn; rewrite L; reflexivity|].
      intros [|k] m' t' E1 E2; cbn [nth_error] in E1, E2.
      + injection E1 as <-. injection E2 as <-. unfold offset. cbn. rewrite Nat.add_0_r. exact Ht.
      + specialize (P k m' t' E1 E2). unfold offset in *. cbn [firstn map list_sum fold_right]. rewrite Nat.add_assoc. exact P.
  Qed.
End Pieces.

Lemma two_open ps : 1 < length (filter is_open ps) -> exists ps1 p ps2 q ps3, ps = ps1 ++ p :: ps2 ++ q :: ps3 /\ In (-1)%Z p /\ In (-1)%Z q.
Proof.
  assert (O : forall p, is_open p = true -> In (-1)%Z p).
  { intros p H. apply existsb_exists in H as (d & Hd & E). apply Z.eqb_eq in E. subst d. exact Hd. }
  induction ps as [|p ps IH]; cbn; [lia|]. destruct (is_open p) eqn:E; cbn [length].
  - intros H. destruct (filter is_open ps) as [|q qs] eqn:Eq; [cbn in H; lia|].
    assert (Hq : In q (filter is_open ps)) by (rewrite Eq; left; reflexivity). apply filter_In in Hq as [Hq1 Hq2]. apply in_split in Hq1 as (l1 & l2 & ->).
    exists [], p, l1, q, l2. split; [reflexivity|]. split; apply O; assumption.
  - intros H. apply IH in H as (ps1 & p' & ps2 & q & ps3 & -> & H1 & H2). exists (p :: ps1), p', ps2, q, ps3. auto.
Qed.

Section Calls.
  Context {A : Type} (r : runtime A) (Hr : runtime_ok r).
  Let U := rt_unicode r.
  Let HU : unicode_ok U := ro_unicode r Hr.

  Lemma pack_said_plain ts p : pack_said r ts p = pack_told U int_shape (t_reshape (rt_lib r)) t_concat ts p.
  Proof. unfold pack_said, rt_backend, U. destruct (rt_framework r); reflexivity. Qed.
  Lemma unpack_said_plain x ps p : unpack_said r x ps p = unpack_told U int_shape (t_reshape (rt_lib r)) t_slice x ps p.
  Proof. unfold unpack_said, rt_backend, U. destruct (rt_framework r); reflexivity. Qed.
  Lemma pack_said_same ts p : plain_told (pack_said r ts p) = pack r ts p.
  Proof. apply told_pack. Qed.
  Lemma unpack_said_same x ps p : plain_told (unpack_said r x ps p) = unpack r x ps p.
  Proof. apply told_unpack. Qed.
  Lemma xp_pack_said_same ts p : xp_pack_said r ts p = pack_said r ts p.
  Proof. rewrite pack_said_plain. reflexivity. Qed.
  Lemma xp_unpack_said_same x ps p : xp_unpack_said r x ps p = unpack_said r x ps p.
  Proof. rewrite unpack_said_plain. reflexivity. Qed.

  Lemma pack_true (ts : list (tensor A)) p c : pack_said r ts p = Says c -> true_of_pack U p ts c.
  Proof.
    rewrite pack_said_plain. unfold pack_told. intros H. apply and_if_Says in H as [H|[[[nb na] mn] [E1 H]]].
    { apply analyze_true in H. destruct c; try exact H. destruct H as (ws & _ & []). }
    apply (analyze_done U p _ HU) in E1 as (before & after & Hp & E). injection E as -> -> ->.
    apply and_if_Says in H as [H|[t0 [_ H]]]; [destruct (quiet_Says _ _ H)|].
    apply and_if_Says in H as [H|[[rs pss] [_ H]]].
    - apply foldT_Says in H as (l1 & [i t] & l2 & [rs pss] & El & _ & H). cbv zeta in H.
      apply and_if_Says in H as [H|[u [_ H]]].
      + apply says_if_Says in H as [H ->]. apply Nat.ltb_lt in H. exists before, after, t. split; [exact Hp|]. split.
        * apply MessageFacts4.enumerate_at. rewrite El. apply in_or_app. right. left. reflexivity.
        * split; [reflexivity|]. split; [reflexivity|exact H].
      + apply and_if_Says in H as [H|[t' [_ H]]]; [destruct (quiet_Says _ _ H)|discriminate].
    - apply and_if_Says in H as [H|[t' [_ H]]]; [destruct (quiet_Says _ _ H)|discriminate].
  Qed.

  Lemma last_nth {B} (l : list B) k x d : length l = S k -> nth_error l k = Some x -> last l d = x.
  Proof.
    revert k. induction l as [|y l IH]; intros k L H; [discriminate|]. destruct l as [|z l].
    - destruct k; [cbn in H |- *; congruence|discriminate].
    - destruct k as [|k]; [discriminate|]. apply (IH k); [cbn in L |- *; lia|exact H].
  Qed.

  Lemma unpack_true (x : tensor A) ps p c : wf x -> unpack_said r x ps p = Says c -> true_of_unpack U p x ps c.
  Proof.
    intros Hw H0. pose proof H0 as H. rewrite unpack_said_plain in H. unfold unpack_told in H. apply and_if_Says in H as [H|[[[nb na] mn] [E1 H]]].
    { apply analyze_true in H. destruct c; try exact H; destruct H as (ws & _ & []). }
    apply (analyze_done U p _ HU) in E1 as (before & after & Hp & E). injection E as -> -> ->. cbv zeta in H.
    apply and_if_Says in H as [H|[u1 [E1 H]]].
    { apply says_if_Says in H as [H ->]. exists before, after. split; [exact Hp|]. split; [reflexivity|].
      apply negb_true_iff, Nat.eqb_neq in H. exact H. }
    assert (L : length (shp x) = length before + 1 + length after).
    { unfold says_if in E1. destruct (length (int_shape x) =? length before + 1 + length after) eqn:E; [|discriminate].
      apply Nat.eqb_eq in E. unfold int_shape in E. rewrite map_length in E. exact E. }
    apply and_if_Says in H as [H|[u2 [E2 H]]].
    { apply says_if_Says in H as [H ->]. apply Nat.ltb_lt in H. rewrite composed_count in H. apply two_open. exact H. }
    assert (C : length (filter is_open ps) <= 1).
    { rewrite <- composed_count. unfold says_if in E2. destruct (1 <? length (filter (fun z => (z =? -1)%Z) (composed_lengths ps))) eqn:E; [discriminate|].
      apply Nat.ltb_ge in E. exact E. }
    apply and_if_Says in H as [H|[n' [E3 H]]]; [destruct (quiet_Says _ _ H)|].
    apply and_if_Says in H as [H|[sp [E4 H]]]; [destruct (quiet_Says _ _ H)|].
    apply quiet_Done in E3, E4.
    match type of H with (match ?m with _ => _ end) = _ => destruct m as [ts|e] eqn:Em end; [discriminate|]. injection H as <-.
    assert (Hn : ps <> []) by (intros ->; discriminate).
    destruct (right_rank x before after L) as (b & n & a & Hs & Lb & La).
    exists before, after, b, n, a. split; [exact Hp|]. split; [exact Hs|]. split; [exact Lb|]. split; [exact La|].
    assert (En : n' = Z.of_nat n).
    { unfold int_shape in E3. rewrite Hs, map_app in E3. cbn [map app] in E3. unfold list_get in E3.
      rewrite <- Lb, <- (map_length Z.of_nat b) in E3. rewrite nth_error_app2, Nat.sub_diag in E3 by lia. cbn in E3. injection E3 as <-. reflexivity. }
    split.
    - destruct (slack_exists ps Hn C) as (ps1 & pu & ps2 & -> & HS). destruct (splits_at n' ps1 pu ps2 HS) as (sp' & Esp & Lsp & _ & Nsp).
      rewrite Esp in E4. injection E4 as ->. rewrite <- En. apply (last_nth sp (length (ps1 ++ pu :: ps2))); [exact Lsp|].
      rewrite Nsp by (rewrite app_length; cbn; lia). rewrite Nat.sub_diag. cbn. f_equal. lia.
    - intros P (ms & HF & Hsum). destruct (pieces_exist x b a n Hw Hs ms 0) as (ts & Lt & HP); [lia|].
      assert (HC : consists_of b a x ms ts) by (split; [exact Hw|]; split; [rewrite Hsum; exact Hs|]; split; [exact Lt|exact HP]).
      pose proof (unpack_complete r Hr x ps p before after b n a ms ts Hp Hs Lb La P Hn C HF HC) as X.
      rewrite <- unpack_said_same, H0 in X. discriminate.
  Qed.
End Calls.
