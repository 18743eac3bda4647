(** * A sum after einsum *)
From Verif Require Import Py Tensor TensorFacts ListFacts SpecSem SpecGrammar SpecEinsum SpecPattern SpecShape SpecForms SpecOps SpecElements SpecDocumented Parsing Compile Recipe Ops Backends Api
  ParseFacts ParseFacts2 ParseFacts3 StepFacts FrontFacts FrontFacts2 FrontFacts3 MainFacts MainFacts2 ReduceFacts MainFacts3 CallFacts RelabelFacts ApiFacts ApiFacts2 ApiFacts3 RedFacts Laws
  EinsumFacts EinsumFacts3 EinsumFacts4 EinsumLaws EinsumLaws2 EinsumLaws4 Einsum DocumentedFacts DocumentedFacts2 DocumentedFacts3 PackLaws MixFacts MixFacts7 TurnedFacts.

Lemma entries_dots E : ungrouped E -> (In EDots (entries_of E) <-> has_dots E = true).
Proof.
  intros UE. split.
  - intros X. apply in_none; [|exact UE]. change None with ((fun en => match en with EName s => Some s | EDots => None end) EDots). apply in_map, X.
  - intros X. apply has_none in X; [|exact UE]. unfold to_term in X. apply in_map_iff in X as ([s|] & X & Y); [discriminate|exact Y].
Qed.

Section Sums.
  Context {A : Type} (r : runtime A) (Hok : runtime_ok r) (add mul : A -> A -> A) (zero one : A) (lib : pystr -> list (tensor A) -> result (tensor A)).
  Context (add_comm : forall a b, add a b = add b a) (add_assoc : forall a b c, add a (add b c) = add (add a b) c) (HC : einsum_contract add mul zero one lib).
  Context (zero_add : forall a, add zero a = a) (mul_assoc : forall a b c, mul a (mul b c) = mul (mul a b) c) (one_mul : forall a, mul one a = a) (mul_one : forall a, mul a one = a).
  Context (dist_l : forall a b c, mul a (add b c) = add (mul a b) (mul a c)) (dist_r : forall a b c, mul (add a b) c = add (mul a c) (mul b c)).
  Context (zero_l : forall a, mul zero a = zero) (zero_r : forall a, mul a zero = zero).
  Context (Hsum : forall vs, rt_red r (lit "sum") vs = Ok (fold_right add zero vs)).
  Notation U := (rt_unicode r).

  Lemma sum_after p1 q p Ls K R xs len :
    einsum_reads U p1 Ls (entries_of K) -> reads U q K R -> einsum_reads U p Ls (entries_of R) -> ungrouped K -> ungrouped R ->
    length (distinct (all_names Ls)) <= 52 -> good_call len (map to_term Ls) (to_term (entries_of K)) xs ->
    incl (keys R) (keys K) -> has_dots R = has_dots K -> length (keys K) <= 52 ->
    exists y z, einsum_with U lib (map inl xs ++ [inr p1]) = Ok y /\ reduce r (One y) q (RStr (lit "sum")) [] = Ok z /\ einsum_with U lib (map inl xs ++ [inr p]) = Ok z.
  Proof.
    intros H1 Hq Hp UK UR H52 G IK Hd H52k. pose proof (ro_unicode _ Hok) as HU.
    destruct Hq as [l [rr [Eq [WK WR]]]]. assert (Hq : reads U q K R) by (exists l, rr; auto).
    assert (NK : NoDup (keys K)) by (eapply written_NoDup; eassumption). assert (NR : NoDup (keys R)) by (eapply written_NoDup; eassumption).
    assert (DK : ndots K <= 1) by (eapply written_ndots; eassumption). assert (DR : ndots R <= 1) by (eapply written_ndots; eassumption).
    assert (IN : incl (entry_names (entries_of R)) (entry_names (entries_of K))).
    { intros s. rewrite !entries_of_entries, !entry_names_keys by assumption. intros [X Y]. split; [apply IK, X|exact Y]. }
    destruct G as (G1 & G2 & G3 & G4 & G5 & G6).
    assert (Enn : incl (entry_names (entries_of K)) (all_names Ls)).
    { intros s Hs. rewrite <- to_term_names in Hs. apply G3 in Hs. clear -Hs. unfold all_names. rewrite in_flat_map in *. destruct Hs as (t & Ht & X). apply in_map_iff in Ht as (es & <- & Y).
      exists es. split; [exact Y|]. rewrite <- to_term_names. exact X. }
    assert (G' : good_call len (map to_term Ls) (to_term (entries_of R)) xs).
    { split; [exact G1|]. split; [rewrite to_term_names, entries_of_entries; apply entry_names_NoDup; auto|]. split.
      { intros s Hs. apply G3. rewrite to_term_names in *. apply IN, Hs. }
      split; [rewrite entries_of_entries; destruct (term_dots_count R UR) as [-> _]; exact DR|]. split; [|exact G6].
      intros X. apply G5 in X. rewrite entries_of_entries in *. apply has_none; [exact UR|rewrite Hd; apply in_none; assumption]. }
    assert (Ek : einsum_reads U q [entries_of K] (entries_of R)).
    { exists [l], rr. split; [rewrite Eq; cbn [str_join]; reflexivity|]. split; [discriminate|]. rewrite !entries_of_entries. split; [|apply ungrouped_lists; auto]. constructor; [apply ungrouped_lists; auto|constructor]. }
    destruct (einsum_formula U HU add mul zero one add_comm add_assoc lib p1 Ls (entries_of K) xs len HC H1 H52 (conj G1 (conj G2 (conj G3 (conj G4 (conj G5 G6)))))) as (y & Ey & Fy).
    destruct (summed_exists (map to_term Ls) (to_term (entries_of K)) xs) as (ms & Hms). destruct (Fy ms Hms) as (Wy & Sy & _).
    destruct (einsum_stages U HU add mul zero one lib add_comm add_assoc HC zero_add mul_assoc one_mul dist_l dist_r zero_l zero_r p1 q p [] Ls [] (entries_of K) (entries_of R) [] xs [] len)
      as (y' & z & Ey' & Ez & Ep); cbn [app]; rewrite ?app_nil_r; auto.
    { apply Forall2_length in G1. rewrite map_length in G1. exact G1. }
    { rewrite <- to_term_names. exact G2. }
    { rewrite dots_of_term. exact G4. }
    { intros X. rewrite entries_dots by exact UK. apply in_none; [|exact UK]. rewrite <- entries_of_entries. apply G5. rewrite <- flat_map_concat_map. apply in_concat in X as (es & X & Y). apply in_flat_map. exists es. split; [exact X|].
      change None with ((fun en => match en with EName s => Some s | EDots => None end) EDots). apply in_map, Y. }
    { rewrite !entries_dots by assumption. congruence. }
    { intros a Ha [X|X]; [destruct X|apply IN, X]. }
    cbn [app] in Ep, Ez. rewrite ?app_nil_r in Ep. exists y, z. split; [exact Ey|]. split; [|exact Ep]. assert (y' = y) by congruence. subst y'.
    set (e := if has_dots K then list_max (map2 spare (map to_term Ls) xs) else 0).
    destruct (einsum_one r Hok add mul zero one lib add_comm add_assoc zero_add mul_one Hsum HC y q K R e) as (z' & Ez1 & Ez2); auto.
    { rewrite Sy, map_length. unfold out_labs. rewrite entries_of_entries, entries_labs, map_length, labs_count by exact UK. destruct (term_dots_count K UK) as [_ CK].
      unfold rank_fits, e. rewrite EinsumLaws.ndots_has. destruct (ndots K) as [|[|k]]; cbn; lia. }
    cbn [map app] in Ez. congruence.
  Qed.

  Lemma sum_before p1 q p Lp Ls L K R us x vs len :
    reads U q L K -> einsum_reads U p1 (Lp ++ entries_of K :: Ls) R -> einsum_reads U p (Lp ++ entries_of L :: Ls) R -> ungrouped L -> ungrouped K ->
    length Lp = length us -> length (distinct (all_names (Lp ++ entries_of L :: Ls))) <= 52 -> length (keys L) <= 52 ->
    good_call len (map to_term (Lp ++ entries_of L :: Ls)) (to_term R) (us ++ x :: vs) ->
    incl (keys K) (keys L) -> has_dots K = has_dots L ->
    (forall a, In a (keys L) -> In a (all_names (Lp ++ Ls)) \/ In a (entry_names R) -> In a (keys K)) ->
    exists y z, reduce r (One x) q (RStr (lit "sum")) [] = Ok y /\ einsum_with U lib (map inl (us ++ y :: vs) ++ [inr p1]) = Ok z /\
      einsum_with U lib (map inl (us ++ x :: vs) ++ [inr p]) = Ok z.
  Proof.
    intros Hq H1 Hp UL UK Hlen H52 H52l G IK Hd Hkeep. pose proof (ro_unicode _ Hok) as HU.
    destruct Hq as [l [rr [Eq [WL WK]]]]. assert (Hq : reads U q L K) by (exists l, rr; auto).
    assert (NK : NoDup (keys K)) by (eapply written_NoDup; eassumption). assert (DK : ndots K <= 1) by (eapply written_ndots; eassumption). assert (DL : ndots L <= 1) by (eapply written_ndots; eassumption).
    assert (Ek : einsum_reads U q [entries_of L] (entries_of K)).
    { exists [l], rr. split; [rewrite Eq; cbn [str_join]; reflexivity|]. split; [discriminate|]. rewrite !entries_of_entries. split; [|apply ungrouped_lists; auto]. constructor; [apply ungrouped_lists; auto|constructor]. }
    pose proof G as (G1 & _ & _ & _ & G5 & _).
    assert (Gx : wf x /\ operand_fits len (to_term (entries_of L)) x).
    { rewrite map_app in G1. cbn [map] in G1. apply Forall2_app_inv_l in G1 as (us' & vs' & F1 & F2 & E). inversion F2 as [|t x' ts xs' F3 F4]; subst. apply Forall2_length in F1. rewrite map_length in F1.
      assert (length us' = length us) by congruence. apply DocumentedFacts3.app_inj_length in E as [_ E]; [|congruence]. injection E as <- <-. split; [apply F3|exact F3]. }
    destruct Gx as (Wx & _ & Dx & Fx).
    destruct (einsum_stages U HU add mul zero one lib add_comm add_assoc HC zero_add mul_assoc one_mul dist_l dist_r zero_l zero_r q p1 p Lp [entries_of L] Ls (entries_of K) R us [x] vs len)
      as (y & z & Ey & Ez & Ep); cbn [app]; auto.
    { rewrite entries_of_entries. apply entry_names_NoDup; auto. }
    { rewrite dots_of_term, entries_of_entries. destruct (term_dots_count K UK) as [-> _]. exact DK. }
    { intros s. unfold all_names. cbn [flat_map]. rewrite app_nil_r, !entries_of_entries, !entry_names_keys by assumption. intros [X Y]. split; [apply IK, X|exact Y]. }
    { cbn [concat]. rewrite app_nil_r, !entries_dots by assumption. congruence. }
    { intros X. rewrite entries_dots, Hd, <- (entries_dots L) in X by assumption.
      assert (Y : In None (to_term R)).
      { apply G5. rewrite map_app, concat_app. apply in_or_app. right. cbn [map concat]. apply in_or_app. left. change None with ((fun en => match en with EName s => Some s | EDots => None end) EDots). apply in_map, X. }
      unfold to_term in Y. apply in_map_iff in Y as ([s|] & Y & Z); [discriminate|exact Z]. }
    { intros a Ha Hb. unfold all_names in Ha. cbn [flat_map] in Ha. rewrite app_nil_r, entries_of_entries, entry_names_keys in Ha by assumption. rewrite entries_of_entries, entry_names_keys by assumption.
      split; [apply Hkeep; tauto|tauto]. }
    destruct (einsum_one r Hok add mul zero one lib add_comm add_assoc zero_add mul_one Hsum HC x q L K (if has_dots L then spare (to_term (entries_of L)) x else 0)) as (y' & Ey1 & Ey2); auto.
    { apply Forall2_length in Fx. unfold operand_labs in Fx. rewrite entries_of_entries, entries_labs, map_length, labs_count in Fx by exact UL. rewrite entries_of_entries. destruct (term_dots_count L UL) as [_ CL].
      unfold rank_fits. rewrite EinsumLaws.ndots_has in *. destruct (ndots L) as [|[|k]]; cbn in *; lia. }
    cbn [map app] in Ey. exists y, z. split; [congruence|]. auto.
  Qed.
End Sums.
