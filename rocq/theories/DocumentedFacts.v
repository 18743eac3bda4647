(** * The formulas in the documentation of einsum *)
From Coq Require Import Permutation.
From Verif Require Import Py Tensor TensorFacts ListFacts SpecSem SpecGrammar SpecEinsum SpecPattern SpecForms SpecOps SpecAdjoint SpecLinear SpecDocumented Parsing
  ParseFacts StepFacts FrontFacts2 MainFacts ReduceFacts EinsumFacts EinsumFacts3 EinsumFacts4 EinsumLaws2 EinsumBatch AdjointFacts Einsum FrontFacts.

Lemma lab_eqb_eq (a b : lab pystr) : lab_eqb str_eqb a b = true <-> a = b.
Proof.
  destruct a as [s|j], b as [t|k]; cbn; try (split; congruence).
  - rewrite str_eqb_eq. split; congruence.
  - rewrite Nat.eqb_eq. split; congruence.
Qed.
Notation labs_of e es := (term_labs e (to_term es)).

Lemma Forall2_same {X Y Z} (P : Y -> Z -> Prop) (f : X -> Y) (g : X -> Z) l : (forall a, In a l -> P (f a) (g a)) -> Forall2 P (map f l) (map g l).
Proof. induction l as [|a l IH]; intros H; cbn; constructor; [apply H; left; reflexivity|]. apply IH. intros b Hb. apply H. right. exact Hb. Qed.
Lemma list_max_pos l : forall k, k < list_max l -> exists j, In j l /\ k < j.
Proof.
  induction l as [|a l IH]; intros k H; [cbn in H; lia|]. change (list_max (a :: l)) with (Nat.max a (list_max l)) in H.
  destruct (Nat.lt_ge_cases k a); [exists a; cbn; auto|]. destruct (IH k) as (j & Hj & X); [lia|]. exists j. cbn. auto.
Qed.
Lemma combine_maps_in {X Y Z} (f : X -> Y) (g : X -> Z) l a : In a l -> In (f a, g a) (combine (map f l) (map g l)).
Proof. induction l as [|b l IH]; [auto|]. intros [->|H]; [left; reflexivity|right; auto]. Qed.

Section Exact.
  Context {A : Type} (add mul : A -> A -> A) (zero one : A).
  Context (add_comm : forall a b, add a b = add b a) (add_assoc : forall a b c, add a (add b c) = add (add a b) c).
  Context (lib : pystr -> list (tensor A) -> result (tensor A)) (HC : einsum_contract add mul zero one lib).
  Context (U : unicode) (HU : unicode_ok U).
  Context (len : lab pystr -> nat) (e : nat).

  Lemma labs_length (t : term (X := pystr)) : length (term_labs e t) = length (term_names t) + term_dots t * e.
  Proof.
    induction t as [|[s|] t IH]; [reflexivity| |].
    - change (term_labs e (Some s :: t)) with (SpecEinsum.LName s :: term_labs e t). change (term_names (Some s :: t)) with (s :: term_names t).
      change (term_dots (Some s :: t)) with (term_dots t). cbn [length]. lia.
    - change (term_labs e (None :: t)) with (map (@LDot pystr) (rev (seq 0 e)) ++ term_labs e t). change (term_names (None :: t)) with (term_names t).
      change (term_dots (None :: t)) with (S (term_dots t)). rewrite app_length, map_length, rev_length, seq_length, IH. lia.
  Qed.

  (** without broadcasting *)
  Lemma einsum_exact p (ops : list (list entry * tensor A)) R mids : einsum_reads U p (map fst ops) R -> length (distinct (all_names (map fst ops))) <= 52 ->
    (forall es t, In (es, t) ops -> wf t /\ shp t = map len (labs_of e es) /\ term_dots (to_term es) <= 1) ->
    NoDup (entry_names R) -> incl (entry_names R) (all_names (map fst ops)) -> term_dots (to_term R) <= 1 ->
    (In EDots R <-> exists es t, In (es, t) ops /\ In EDots es) ->
    NoDup mids -> (forall l, In l mids <-> In l (flat_map (fun o => labs_of e (fst o)) ops) /\ ~ In l (labs_of e R)) ->
    exists w, einsum_with U lib (map (fun o => inl (snd o)) ops ++ [inr p]) = Ok w /\ wf w /\ shp w = map len (labs_of e R) /\
      forall ix, within len ix (labs_of e R) ->
        get w (map ix (labs_of e R)) = Some (sum_over add zero (map len mids) (fun v =>
          fold_right mul one (map (fun o => elt zero (snd o) (map (assign (lab_eqb str_eqb) ix mids v) (labs_of e (fst o)))) ops))).
  Proof.
    intros Hr H52 Ht NR HR DR HD Nm Hm.
    assert (Hdots : forall es, In EDots es <-> In None (to_term es)).
    { intros es. unfold to_term. rewrite in_map_iff. split; [intros X; exists EDots; auto|]. intros ([s|] & E & X); [discriminate|exact X]. }
    assert (Hsp : forall es t, In (es, t) ops -> spare (to_term es) t = if term_dots (to_term es) =? 0 then 0 else e).
    { intros es t Hin. destruct (Ht es t Hin) as (_ & S & D). unfold spare. rewrite S, map_length, labs_length.
      destruct (Nat.eqb_spec (term_dots (to_term es)) 0) as [->|X]; [lia|]. assert (term_dots (to_term es) = 1) as -> by lia. lia. }
    assert (Hd0 : forall t : term (X := pystr), term_dots t = 0 <-> ~ In None t).
    { induction t as [|[s|] t IH]; [split; auto| |].
      - change (term_dots (Some s :: t)) with (term_dots t). rewrite IH. split; intros X; [intros [Y|Y]; [discriminate|auto]|intros Y; apply X; right; exact Y].
      - change (term_dots (None :: t)) with (S (term_dots t)). split; [discriminate|]. intros X. exfalso. apply X. left. reflexivity. }
    assert (Hl0 : forall (t : term (X := pystr)) j k, ~ In None t -> term_labs j t = term_labs k t).
    { induction t as [|[s|] t IH]; intros j k X; [reflexivity| |exfalso; apply X; left; reflexivity].
      cbn [term_labs flat_map app]. f_equal. apply IH. intros Y. apply X. right. exact Y. }
    assert (Hop : forall es t, In (es, t) ops -> operand_labs (to_term es) t = labs_of e es).
    { intros es t Hin. unfold operand_labs. rewrite (Hsp _ _ Hin). destruct (Nat.eqb_spec (term_dots (to_term es)) 0) as [X|X]; [|reflexivity]. apply Hl0, Hd0, X. }
    set (Ts := map to_term (map fst ops)). set (xs := map snd ops).
    assert (Hmax : list_max (map2 spare Ts xs) <= e).
    { apply list_max_le. unfold Ts, xs. rewrite map_map, map2_map, map2_same. apply Forall_forall. intros k Hk. apply in_map_iff in Hk as ([es t] & <- & Hin). cbn [fst snd]. rewrite (Hsp _ _ Hin). destruct (_ =? 0); lia. }
    assert (Hmax' : In EDots R -> list_max (map2 spare Ts xs) = e).
    { intros X. apply Nat.le_antisymm; [exact Hmax|]. apply HD in X as (es & t & Hin & X). rewrite Hdots in X.
      assert (G : In (spare (to_term es) t) (map2 spare Ts xs)).
      { unfold Ts, xs. rewrite map_map, map2_map, map2_same. apply in_map_iff. exists (es, t). auto. }
      rewrite (Hsp _ _ Hin) in G. destruct (Nat.eqb_spec (term_dots (to_term es)) 0) as [Y|Y]; [apply Hd0 in Y; contradiction|].
      pose proof (proj1 (list_max_le (map2 spare Ts xs) _) (le_n _)) as L. rewrite Forall_forall in L. apply L, G. }
    assert (Hout : out_labs Ts xs (to_term R) = labs_of e R).
    { unfold out_labs. destruct (in_dec (fun a b : option pystr => ltac:(decide equality; apply str_eq_dec)) None (to_term R)) as [X|X]; [|apply Hl0, X].
      rewrite Hmax'; [reflexivity|]. apply Hdots, X. }
    assert (Hall : all_labs Ts xs = flat_map (fun o => labs_of e (fst o)) ops).
    { unfold all_labs, Ts, xs. rewrite map_map, map2_map, map2_same, flat_map_concat_map. f_equal. apply map_ext_in. intros [es t] Hin. cbn [fst snd]. apply Hop, Hin. }
    assert (Hfit : Forall2 (operand_fits len) Ts xs).
    { unfold Ts, xs. rewrite map_map. apply Forall2_same. intros [es t] Hin. cbn [fst snd]. destruct (Ht es t Hin) as (W & S & D).
      split; [exact W|]. split; [exact D|]. rewrite (Hop _ _ Hin), S. clear. induction (labs_of e es) as [|l ls IH]; constructor; [destruct l; cbn; auto|exact IH]. }
    destruct (einsum_formula U HU add mul zero one add_comm add_assoc lib p (map fst ops) R xs len HC Hr H52) as (w & Ew & Fw).
    - split; [exact Hfit|]. split; [rewrite to_term_names; exact NR|]. split; [rewrite to_terms_names, to_term_names; exact HR|]. split; [exact DR|]. split.
      + intros X. apply Hdots, HD. apply in_concat in X as (t & X & Y). unfold Ts in X. apply in_map_iff in X as (es & <- & X). apply in_map_iff in X as ([es' t'] & E & Hin). cbn in E. subst es'.
        exists es, t'. split; [exact Hin|]. apply Hdots, Y.
      + intros k Hk. fold Ts in Hk. assert (Hk0 : k < e) by lia.
        assert (X : exists es t, In (es, t) ops /\ In None (to_term es)).
        { destruct (list_max_pos _ _ Hk) as (j & Hj & Hkj). unfold Ts, xs in Hj. rewrite map_map, map2_map, map2_same in Hj. apply in_map_iff in Hj as ([es t] & <- & Hin). cbn [fst snd] in Hkj.
          exists es, t. split; [exact Hin|]. rewrite (Hsp _ _ Hin) in Hkj. destruct (Nat.eqb_spec (term_dots (to_term es)) 0) as [Y|Y]; [lia|].
          destruct (in_dec (fun a b : option pystr => ltac:(decide equality; apply str_eq_dec)) None (to_term es)) as [Z|Z]; [exact Z|]. apply Hd0 in Z. contradiction. }
        destruct X as (es & t & Hin & X). exists (to_term es), t. split.
        * unfold xs. rewrite map_map. exact (combine_maps_in (fun o => to_term (fst o)) snd ops (es, t) Hin).
        * destruct (Ht es t Hin) as (_ & S & _). rewrite (Hop _ _ Hin), S. rewrite <- (map_id (labs_of e es)) at 1. apply (combine_maps_in (fun l => l) len). unfold term_labs. apply in_flat_map. exists None. split; [exact X|]. apply in_map. rewrite <- in_rev. apply in_seq. lia.
    - exists w. split; [unfold xs in Ew; rewrite map_map in Ew; exact Ew|]. fold Ts in Fw. destruct (Fw mids) as (Ww & Sw & Gw).
      { split; [exact Nm|]. intros l. rewrite Hall, Hout. apply Hm. }
      rewrite Hout in Sw, Gw. split; [exact Ww|]. split; [exact Sw|]. intros ix Hix. rewrite (Gw ix Hix). f_equal. unfold sum_over. f_equal. apply map_ext_in. intros v Hv.
      apply indices_In in Hv. unfold product_at. f_equal. unfold Ts, xs. rewrite map_map, map2_map, map2_same. apply map_ext_in. intros [es t] Hin. cbn [fst snd]. destruct (Ht es t Hin) as (_ & S & _).
      unfold element_at, elt. rewrite (Hop _ _ Hin), S. rewrite <- (map_id (labs_of e es)) at 1. rewrite map2_map, map2_same.
      replace (map _ (labs_of e es)) with (map (assign (lab_eqb str_eqb) ix mids v) (labs_of e es)); [reflexivity|]. apply map_ext_in. intros l Hl.
      assert (assign (lab_eqb str_eqb) ix mids v l < len l).
      { destruct (in_dec (fun a b : lab pystr => ltac:(decide equality; [apply str_eq_dec|apply Nat.eq_dec])) l (labs_of e R)) as [X|X].
        - rewrite (assign_out _ lab_eqb_eq); [apply Hix, X|]. intros Y. apply Hm in Y. tauto.
        - apply (within_assign _ lab_eqb_eq len ix mids v Nm Hv). apply Hm. split; [|exact X]. apply in_flat_map. exists (es, t). auto. }
      destruct (Nat.eqb_spec (len l) 1); [lia|reflexivity].
  Qed.
End Exact.

Lemma assign_block {X} (eqb : X -> X -> bool) (eqb_eq : forall a b, eqb a b = true <-> a = b) d p q r vp vq vr : NoDup (p ++ q ++ r) -> length vp = length p -> length vq = length q ->
  map (assign eqb d (p ++ q ++ r) (vp ++ vq ++ vr)) q = vq.
Proof.
  intros N Hp Hq. apply NoDup_app_iff in N as (_ & N & D). apply NoDup_app_iff in N as (N & _ & D2).
  transitivity (map (assign eqb (assign eqb d p vp) q vq) q); [|apply (assign_map eqb eqb_eq); auto].
  apply map_ext_in. intros a Ha. rewrite (assign_app eqb eqb_eq); [|exact Hp|intros X1 X2; exact (D a X1 X2)].
  rewrite (assign_app eqb eqb_eq); [|exact Hq|intros _; exact (D2 a Ha)]. apply (assign_out eqb eqb_eq), D2, Ha.
Qed.
Lemma assign_last {X} (eqb : X -> X -> bool) (eqb_eq : forall a b, eqb a b = true <-> a = b) d p q vp vq : NoDup (p ++ q) -> length vp = length p -> length vq = length q ->
  map (assign eqb d (p ++ q) (vp ++ vq)) q = vq.
Proof. intros N Hp Hq. pose proof (assign_block eqb eqb_eq d p q [] vp vq []) as H. rewrite !app_nil_r in H. auto. Qed.

Lemma width_labs e es : length (labs_of e es) = width e es.
Proof.
  induction es as [|[s|] es IH]; [reflexivity| |].
  - change (labs_of e (EName s :: es)) with (SpecEinsum.LName s :: labs_of e es). change (width e (EName s :: es)) with (1 + width e es). cbn [length]. lia.
  - change (labs_of e (EDots :: es)) with (map (@LDot pystr) (rev (seq 0 e)) ++ labs_of e es). change (width e (EDots :: es)) with (e + width e es).
    rewrite app_length, map_length, rev_length, seq_length, IH. reflexivity.
Qed.
Lemma labs_app e a b : labs_of e (a ++ b) = labs_of e a ++ labs_of e b.
Proof. unfold to_term. rewrite map_app. apply term_labs_app. Qed.
Lemma entry_names_in s es : In s (entry_names es) <-> In (EName s) es.
Proof.
  unfold entry_names. rewrite in_flat_map. split; [intros ([t|] & H & X); [destruct X as [<-|[]]; exact H|destruct X]|]. intros H. exists (EName s). cbn. auto.
Qed.
Lemma entries_distinct es : NoDup es -> NoDup (entry_names es) /\ term_dots (to_term es) <= 1.
Proof.
  induction 1 as [|en es H N [IH1 IH2]]; [split; [constructor|cbn; lia]|]. destruct en as [s|].
  - change (entry_names (EName s :: es)) with (s :: entry_names es). change (term_dots (to_term (EName s :: es))) with (term_dots (to_term es)).
    split; [|exact IH2]. constructor; [|exact IH1]. rewrite entry_names_in. exact H.
  - change (entry_names (EDots :: es)) with (entry_names es). split; [exact IH1|].
    change (term_dots (to_term (EDots :: es))) with (S (term_dots (to_term es))). enough (term_dots (to_term es) = 0) by lia. clear -H. induction es as [|[t|] es IH]; [reflexivity| |].
    + change (term_dots (to_term (EName t :: es))) with (term_dots (to_term es)). apply IH. intros X. apply H. right. exact X.
    + exfalso. apply H. left. reflexivity.
Qed.
Lemma labs_distinct e es : NoDup es -> NoDup (labs_of e es).
Proof. intros N. destruct (entries_distinct es N) as [H1 H2]. apply term_labs_NoDup; [rewrite to_term_names; exact H1|exact H2]. Qed.
Lemma labs_no_dots e l es : ~ In EDots es -> In l (labs_of e es) -> exists s, l = SpecEinsum.LName s /\ In (EName s) es.
Proof.
  intros H X. apply in_flat_map in X as (o & X & Y). apply in_map_iff in X as ([s|] & <- & X); [|contradiction]. destruct Y as [<-|[]]. eauto.
Qed.
Lemma distinct_bound l m : incl l m -> length (distinct l) <= length m.
Proof. intros H. apply NoDup_incl_length; [apply distinct_NoDup|]. intros s Hs. apply H. rewrite <- distinct_In. exact Hs. Qed.

Section Formulas.
  Context {A : Type} (add mul : A -> A -> A) (zero one : A).
  Context (add_comm : forall a b, add a b = add b a) (add_assoc : forall a b c, add a (add b c) = add (add a b) c) (mul_one : forall a, mul a one = a).
  Context (lib : pystr -> list (tensor A) -> result (tensor A)) (HC : einsum_contract add mul zero one lib).
  Context (U : unicode) (HU : unicode_ok U).
  Notation asg := (assign (lab_eqb str_eqb)).
  Notation none := (fun _ : lab pystr => 0).

  Lemma tensordot_call p (b l m n : list entry) e (x y : tensor A) sb sl sm sn : NoDup (b ++ l ++ m ++ n) -> ~ In EDots m -> length (entry_names (b ++ l ++ m ++ n)) <= 52 ->
    einsum_reads U p [b ++ l ++ m; b ++ m ++ n] (b ++ l ++ n) -> wf x -> wf y -> shp x = sb ++ sl ++ sm -> shp y = sb ++ sm ++ sn ->
    length sb = width e b -> length sl = width e l -> length sm = width e m -> length sn = width e n ->
    exists z, einsum_with U lib [inl x; inl y; inr p] = Ok z /\ wf z /\ shp z = sb ++ sl ++ sn /\
      forall h i k, inb sb h = true -> inb sl i = true -> inb sn k = true ->
        get z (h ++ i ++ k) = Some (sum_over add zero sm (fun j => mul (elt zero x (h ++ i ++ j)) (elt zero y (h ++ j ++ k)))).
  Proof.
    intros N Dm H52 Hr Wx Wy Sx Sy Eb El Em En. rewrite <- width_labs in Eb, El, Em, En.
    set (B := labs_of e b) in *. set (L := labs_of e l) in *. set (M := labs_of e m) in *. set (K := labs_of e n) in *.
    set (len := asg none (B ++ L ++ M ++ K) (sb ++ sl ++ sm ++ sn)).
    assert (ND : NoDup (B ++ L ++ M ++ K)) by (unfold B, L, M, K; rewrite <- !labs_app; apply labs_distinct, N).
    assert (LB : map len B = sb) by (apply (assign_block _ lab_eqb_eq none [] B (L ++ M ++ K) [] sb); auto).
    assert (LL : map len L = sl) by (apply (assign_block _ lab_eqb_eq none B L (M ++ K) sb sl); auto).
    assert (LM : map len M = sm).
    { unfold len. rewrite (app_assoc B), (app_assoc sb). apply (assign_block _ lab_eqb_eq none (B ++ L) M K (sb ++ sl) sm); [rewrite <- app_assoc; exact ND|rewrite !app_length; lia|exact Em]. }
    assert (LK : map len K = sn).
    { unfold len. rewrite !app_assoc. apply (assign_last _ lab_eqb_eq); [rewrite <- !app_assoc; exact ND|rewrite !app_length; lia|exact En]. }
    assert (NR : NoDup (b ++ l ++ n)).
    { rewrite app_assoc in N. rewrite app_assoc. apply NoDup_app_iff in N as (N1 & N2 & N3). apply NoDup_app_iff in N2 as (_ & N2 & _). apply NoDup_app_iff. split; [exact N1|]. split; [exact N2|].
      intros a X Y. apply (N3 a X), in_or_app. auto. }
    assert (N1 : NoDup (b ++ l ++ m)) by (rewrite !(app_assoc b), !(app_assoc (b ++ l)) in N; apply NoDup_app_iff in N as (N & _); rewrite <- app_assoc in N; exact N).
    assert (N2 : NoDup (b ++ m ++ n)).
    { apply NoDup_app_iff in N as (X1 & X2 & X3). apply NoDup_app_iff in X2 as (_ & X2 & _). apply NoDup_app_iff. split; [exact X1|]. split; [exact X2|]. intros a X Y. apply (X3 a X), in_or_app. auto. }
    assert (ED : forall a, In a (b ++ l ++ n) -> In a (b ++ l ++ m) \/ In a (b ++ m ++ n)) by (intros a; rewrite !in_app_iff; tauto).
    assert (NM : NoDup M) by (apply NoDup_app_iff in ND as (_ & ND & _); apply NoDup_app_iff in ND as (_ & ND & _); apply NoDup_app_iff in ND; tauto).
    assert (DM : forall a, In a M -> ~ In a (B ++ L ++ K)).
    { rewrite app_assoc in ND. apply NoDup_app_iff in ND as (_ & ND & X3). apply NoDup_app_iff in ND as (_ & _ & X4). intros a Ha. rewrite app_assoc, in_app_iff. intros [X|X]; [apply (X3 a X), in_or_app; auto|exact (X4 a Ha X)]. }
    destruct (einsum_exact add mul zero one add_comm add_assoc lib HC U HU len e p [(b ++ l ++ m, x); (b ++ m ++ n, y)] (b ++ l ++ n) M) as (z & Ez & Wz & Sz & Gz).
    - exact Hr.
    - cbn [map fst all_names flat_map]. etransitivity; [apply distinct_bound|exact H52]. intros s. unfold all_names. cbn [flat_map]. rewrite app_nil_r, in_app_iff, !entry_names_in, !in_app_iff. tauto.
    - intros es t [E|[E|[]]]; injection E as <- <-; (split; [assumption|]); (split; [rewrite !labs_app, !map_app; fold B L M K; rewrite LB, LM, ?LL, ?LK; assumption|]); apply entries_distinct; assumption.
    - apply entries_distinct, NR.
    - intros s. cbn [map fst]. unfold all_names. cbn [flat_map]. rewrite app_nil_r, in_app_iff, !entry_names_in. apply ED.
    - apply entries_distinct, NR.
    - split.
      + intros X. apply ED in X as [X|X]; eexists; eexists; (split; [|exact X]); cbn; auto.
      + intros (es & t & [E|[E|[]]] & X); injection E as <- <-; rewrite !in_app_iff in *; tauto.
    - exact NM.
    - intros lb. cbn [flat_map fst]. rewrite app_nil_r, !labs_app, !in_app_iff. fold B L M K. split; [|tauto]. intros X. split; [tauto|]. specialize (DM lb X). rewrite !in_app_iff in DM. exact DM.
    - exists z. split; [exact Ez|]. split; [exact Wz|]. split; [rewrite Sz, !labs_app, !map_app; fold B L M K; rewrite LB, LL, LK; reflexivity|].
      intros h i k Hh Hi Hk. pose proof (inb_length _ _ Hh) as Lh. pose proof (inb_length _ _ Hi) as Li. pose proof (inb_length _ _ Hk) as Lk. rewrite Eb in Lh. rewrite El in Li. rewrite En in Lk.
      set (ix := asg none (B ++ L ++ K) (h ++ i ++ k)).
      assert (NDR : NoDup (B ++ L ++ K)) by (unfold B, L, K; rewrite <- !labs_app; apply labs_distinct, NR).
      assert (IB : map ix B = h) by (apply (assign_block _ lab_eqb_eq none [] B (L ++ K) [] h); auto).
      assert (IL : map ix L = i) by (apply (assign_block _ lab_eqb_eq none B L K h i); auto).
      assert (IK : map ix K = k).
      { unfold ix. rewrite !app_assoc. apply (assign_last _ lab_eqb_eq); [rewrite <- !app_assoc; exact NDR|rewrite !app_length; lia|exact Lk]. }
      specialize (Gz ix). rewrite !labs_app, !map_app in Gz. fold B L K in Gz. rewrite IB, IL, IK in Gz. rewrite Gz.
      + rewrite LM. f_equal. unfold sum_over. f_equal. apply map_ext_in. intros j Hj. apply indices_In, inb_length in Hj. cbn [map fold_right fst snd].
        rewrite mul_one, !labs_app, !map_app. fold B L M K. rewrite (assign_map _ lab_eqb_eq ix M j NM) by lia.
        assert (Out : forall l0, incl l0 (B ++ L ++ K) -> map (asg ix M j) l0 = map ix l0).
        { intros l0 H0. apply (assign_map_out _ lab_eqb_eq). intros a Ha X. exact (DM a X (H0 a Ha)). }
        rewrite (Out B), (Out L), (Out K), IB, IL, IK; [reflexivity| | |]; intros a Ha; rewrite !in_app_iff; auto.
      + apply inb_within. rewrite !map_app. rewrite LB, LL, LK, IB, IL, IK. rewrite !inb_app, Hh, Hi, Hk by lia. reflexivity.
  Qed.

  Lemma dense_call p (n m : list entry) e (w x : tensor A) sn sm sd : NoDup (EDots :: n ++ m) -> length (entry_names (n ++ m)) <= 52 ->
    einsum_reads U p [n ++ m; EDots :: m] (EDots :: n) -> wf w -> wf x -> shp w = sn ++ sm -> shp x = sd ++ sm ->
    length sn = width e n -> length sm = width e m -> length sd = e ->
    exists z, einsum_with U lib [inl w; inl x; inr p] = Ok z /\ wf z /\ shp z = sd ++ sn /\
      forall h k, inb sd h = true -> inb sn k = true ->
        get z (h ++ k) = Some (sum_over add zero sm (fun j => mul (elt zero w (k ++ j)) (elt zero x (h ++ j)))).
  Proof.
    intros N H52 Hr Ww Wx Sw Sx En Em Ed. rewrite <- width_labs in En, Em.
    assert (Ed' : length sd = length (labs_of e [EDots])) by (rewrite width_labs; cbn; lia).
    set (D := labs_of e [EDots]) in *. set (M := labs_of e m) in *. set (K := labs_of e n) in *.
    set (len := asg none (D ++ K ++ M) (sd ++ sn ++ sm)).
    assert (ND : NoDup (D ++ K ++ M)) by (unfold D, K, M; rewrite <- !labs_app; apply labs_distinct; exact N).
    assert (LD : map len D = sd) by (apply (assign_block _ lab_eqb_eq none [] D (K ++ M) [] sd); auto).
    assert (LK : map len K = sn) by (apply (assign_block _ lab_eqb_eq none D K M sd sn); auto).
    assert (LM : map len M = sm).
    { unfold len. rewrite !app_assoc. apply (assign_last _ lab_eqb_eq); [rewrite <- !app_assoc; exact ND|rewrite !app_length; lia|exact Em]. }
    assert (Dots : ~ In EDots (n ++ m)) by (inversion N; assumption).
    assert (N1 : NoDup (n ++ m)) by (inversion N; assumption).
    assert (N2 : NoDup (EDots :: m)) by (apply NoDup_app_iff in N1 as (_ & N1 & _); constructor; [intros X; apply Dots, in_or_app; auto|exact N1]).
    assert (NR : NoDup (EDots :: n)) by (apply NoDup_app_iff in N1 as (N1 & _); constructor; [intros X; apply Dots, in_or_app; auto|exact N1]).
    assert (NM : NoDup M) by (apply NoDup_app_iff in ND as (_ & ND & _); apply NoDup_app_iff in ND; tauto).
    assert (DM : forall a, In a M -> ~ In a (D ++ K)).
    { rewrite app_assoc in ND. apply NoDup_app_iff in ND as (_ & ND & X3). intros a Ha X. exact (X3 a X Ha). }
    assert (Sp : forall es, labs_of e (EDots :: es) = D ++ labs_of e es) by (intros es; apply (labs_app e [EDots] es)).
    destruct (einsum_exact add mul zero one add_comm add_assoc lib HC U HU len e p [(n ++ m, w); (EDots :: m, x)] (EDots :: n) M) as (z & Ez & Wz & Sz & Gz).
    - exact Hr.
    - cbn [map fst]. etransitivity; [apply distinct_bound|exact H52]. intros s. unfold all_names. cbn [flat_map]. rewrite app_nil_r, in_app_iff, !entry_names_in. cbn [In]. rewrite !in_app_iff. intuition discriminate.
    - intros es t [E|[E|[]]]; injection E as <- <-; (split; [assumption|]); (split; [rewrite ?Sp, ?labs_app, !map_app; fold D K M; rewrite LM, ?LK, ?LD; assumption|]); apply entries_distinct; assumption.
    - apply entries_distinct, NR.
    - intros s. cbn [map fst]. unfold all_names. cbn [flat_map]. rewrite app_nil_r, in_app_iff, !entry_names_in. cbn [In]. rewrite !in_app_iff. intuition discriminate.
    - apply entries_distinct, NR.
    - split; [|intros _; left; reflexivity]. intros _. exists (EDots :: m), x. cbn. auto.
    - exact NM.
    - intros lb. cbn [flat_map fst]. rewrite app_nil_r, !Sp, !labs_app, !in_app_iff. fold K M. split; [|tauto]. intros X. split; [tauto|]. specialize (DM lb X). rewrite !in_app_iff in DM. exact DM.
    - exists z. split; [exact Ez|]. split; [exact Wz|]. split; [rewrite Sz, !Sp, !map_app; fold K; rewrite LD, LK; reflexivity|].
      intros h k Hh Hk. pose proof (inb_length _ _ Hh) as Lh. pose proof (inb_length _ _ Hk) as Lk. rewrite Ed' in Lh. rewrite En in Lk.
      set (ix := asg none (D ++ K) (h ++ k)).
      assert (NDR : NoDup (D ++ K)) by (rewrite app_assoc in ND; apply NoDup_app_iff in ND; tauto).
      assert (IB : map ix D = h) by (apply (assign_block _ lab_eqb_eq none [] D K [] h); auto).
      assert (IK : map ix K = k) by (apply (assign_last _ lab_eqb_eq); auto).
      specialize (Gz ix). rewrite !Sp, !map_app in Gz. fold K in Gz. rewrite IB, IK in Gz. rewrite Gz.
      + rewrite LM. f_equal. unfold sum_over. f_equal. apply map_ext_in. intros j Hj. apply indices_In, inb_length in Hj. cbn [map fold_right fst snd].
        rewrite mul_one, !Sp, !labs_app, !map_app. fold K M. rewrite (assign_map _ lab_eqb_eq ix M j NM) by lia.
        assert (Out : forall l0, incl l0 (D ++ K) -> map (asg ix M j) l0 = map ix l0).
        { intros l0 H0. apply (assign_map_out _ lab_eqb_eq). intros a Ha X. exact (DM a X (H0 a Ha)). }
        rewrite (Out D), (Out K), IB, IK; [reflexivity| |]; intros a Ha; rewrite !in_app_iff; auto.
      + apply inb_within. rewrite !map_app, LD, LK, IB, IK, !inb_app, Hh, Hk by lia. reflexivity.
  Qed.

  Lemma sum_over_one n f : sum_over add zero [n] f = sum_to add zero n (fun i => f [i]).
  Proof.
    unfold sum_over, sum_to. f_equal. cbn [indices map]. generalize (seq 0 n). induction l as [|a l IH]; [reflexivity|]. cbn. f_equal. exact IH.
  Qed.

  Lemma trace_call p i (x : tensor A) n : einsum_reads U p [[EName i; EName i]] [] -> wf x -> shp x = [n; n] ->
    exists z, einsum_with U lib [inl x; inr p] = Ok z /\ wf z /\ shp z = [] /\ get z [] = Some (sum_to add zero n (fun k => elt zero x [k; k])).
  Proof.
    intros Hr Wx Sx.
    destruct (einsum_exact add mul zero one add_comm add_assoc lib HC U HU (fun _ => n) 0 p [([EName i; EName i], x)] [] [SpecEinsum.LName i]) as (z & Ez & Wz & Sz & Gz).
    - exact Hr.
    - cbn [map fst]. etransitivity; [apply (distinct_bound _ [i])|cbn; lia]. intros s [<-|[<-|[]]]; left; reflexivity.
    - intros es t [E|[]]. injection E as <- <-. split; [exact Wx|]. split; [exact Sx|cbn; lia].
    - constructor.
    - intros s [].
    - cbn; lia.
    - split; [intros []|]. intros (es & t & [E|[]] & X). injection E as <- <-. destruct X as [X|[X|[]]]; discriminate.
    - constructor; [intros []|constructor].
    - intros l. cbn. intuition.
    - exists z. split; [exact Ez|]. split; [exact Wz|]. split; [exact Sz|]. specialize (Gz none (fun l H => match H with end)). cbn [to_term term_labs map flat_map] in Gz. rewrite Gz. f_equal.
      cbn [map]. rewrite sum_over_one. unfold sum_to. f_equal. apply map_ext. intros k. cbn [map fold_right fst snd term_labs to_term flat_map app]. rewrite mul_one.
      assert (Ek : asg none [SpecEinsum.LName i] [k] (SpecEinsum.LName i) = k) by (unfold assign; cbn; rewrite str_eqb_refl; reflexivity). rewrite Ek. reflexivity.
  Qed.

  Context (add_zero : forall a, add zero a = a).
  Lemma sum_app l m : fold_right add zero (l ++ m) = add (fold_right add zero l) (fold_right add zero m).
  Proof. induction l as [|a l IH]; cbn; [symmetry; apply add_zero|]. rewrite IH. apply add_assoc. Qed.
  Lemma sum_over_cons n s f : sum_over add zero (n :: s) f = sum_to add zero n (fun i => sum_over add zero s (fun v => f (i :: v))).
  Proof.
    unfold sum_over, sum_to. cbn [indices]. generalize (seq 0 n). induction l as [|i l IH]; [reflexivity|]. cbn [flat_map map fold_right]. rewrite map_app, sum_app, IH, map_map. reflexivity.
  Qed.
  Lemma sum_over_nil f : sum_over add zero [] f = f [].
  Proof. unfold sum_over. cbn. rewrite add_comm. apply add_zero. Qed.
  Lemma sum_to_ext n f g : (forall i, i < n -> f i = g i) -> sum_to add zero n f = sum_to add zero n g.
  Proof. intros H. unfold sum_to. f_equal. apply map_ext_in. intros i Hi. apply in_seq in Hi. apply H. lia. Qed.

  Lemma three_call p a b c d g k (x y z : tensor A) na nb nc nd ng nk : NoDup [a; b; c; d; g; k] ->
    einsum_reads U p [name_entries [a; b; c]; name_entries [c; b; d]; name_entries [a; g; k]] (name_entries [a; b; k]) ->
    wf x -> wf y -> wf z -> shp x = [na; nb; nc] -> shp y = [nc; nb; nd] -> shp z = [na; ng; nk] ->
    exists w, einsum_with U lib [inl x; inl y; inl z; inr p] = Ok w /\ wf w /\ shp w = [na; nb; nk] /\
      forall ia ib ik, ia < na -> ib < nb -> ik < nk ->
        get w [ia; ib; ik] = Some (sum_to add zero nc (fun ic => sum_to add zero nd (fun id => sum_to add zero ng (fun ig =>
          mul (elt zero x [ia; ib; ic]) (mul (elt zero y [ic; ib; id]) (elt zero z [ia; ig; ik])))))).
  Proof.
    intros N Hr Wx Wy Wz Sx Sy Sz.
    assert (NL : NoDup (map SpecEinsum.LName [a; b; c; d; g; k])) by (apply NoDup_map_inj; [congruence|exact N]).
    set (len := asg none (map SpecEinsum.LName [a; b; c; d; g; k]) [na; nb; nc; nd; ng; nk]).
    assert (E : map len (map SpecEinsum.LName [a; b; c; d; g; k]) = [na; nb; nc; nd; ng; nk]) by (apply (assign_map _ lab_eqb_eq); [exact NL|reflexivity]).
    clearbody len. cbn [map] in E. injection E as Ea Eb Ec Ed Eg Ek.
    assert (Neq : forall s t, In (s, t) [(a, b); (a, c); (a, d); (a, g); (a, k); (b, c); (b, d); (b, g); (b, k); (c, d); (c, g); (c, k); (d, g); (d, k); (g, k)] -> s <> t).
    { clear -N. repeat match goal with H : NoDup (_ :: _) |- _ => inversion_clear H end. intros s t HI HE. cbn [In] in *. repeat destruct HI as [HI|HI]; try (injection HI as HI1 HI2); subst; tauto. }
    destruct (einsum_exact add mul zero one add_comm add_assoc lib HC U HU len 0 p [(name_entries [a; b; c], x); (name_entries [c; b; d], y); (name_entries [a; g; k], z)] (name_entries [a; b; k]) (map SpecEinsum.LName [c; d; g])) as (w & Ew & Ww & Sw & Gw).
    - exact Hr.
    - cbn [map fst]. etransitivity; [apply (distinct_bound _ [a; b; c; d; g; k])|cbn; lia]. intros s Hs. cbn in Hs. cbn. tauto.
    - intros es t [X|[X|[X|[]]]]; injection X as <- <-; (split; [assumption|]); (split; [cbn; congruence|cbn; lia]).
    - cbn. repeat constructor; cbn [In]; intros X; repeat destruct X as [X|X]; try exact X; symmetry in X; revert X; apply Neq; cbn; tauto.
    - intros s Hs. cbn in Hs. cbn. tauto.
    - cbn; lia.
    - split; [intros [X|[X|[X|[]]]]; discriminate|]. intros (es & t & [X|[X|[X|[]]]] & Y); injection X as <- <-; destruct Y as [Y|[Y|[Y|[]]]]; discriminate.
    - apply NoDup_map_inj; [congruence|]. repeat constructor; cbn [In]; intros X; repeat destruct X as [X|X]; try exact X; symmetry in X; revert X; apply Neq; cbn; tauto.
    - assert (Ne : forall s t, In (s, t) [(a, b); (a, c); (a, d); (a, g); (a, k); (b, c); (b, d); (b, g); (b, k); (c, d); (c, g); (c, k); (d, g); (d, k); (g, k)] -> SpecEinsum.LName s <> SpecEinsum.LName t) by (intros s t H X; injection X as X; exact (Neq s t H X)).
      intros l. cbn [flat_map fst name_entries map to_term term_labs app In]. split.
      + intros [<-|[<-|[<-|[]]]]; (split; [tauto|]); intros X; repeat destruct X as [X|X]; try exact X; first [revert X; apply Ne; cbn; tauto|symmetry in X; revert X; apply Ne; cbn; tauto].
      + tauto.
    - exists w. split; [exact Ew|]. split; [exact Ww|]. split; [rewrite Sw; cbn; congruence|]. intros ia ib ik Ha Hb Hk.
      set (ix := asg none (map SpecEinsum.LName [a; b; k]) [ia; ib; ik]).
      assert (Ei : map ix (map SpecEinsum.LName [a; b; k]) = [ia; ib; ik]).
      { apply (assign_map _ lab_eqb_eq); [|reflexivity]. apply NoDup_map_inj; [congruence|]. repeat constructor; cbn [In]; intros X; repeat destruct X as [X|X]; try exact X; symmetry in X; revert X; apply Neq; cbn; tauto. }
      specialize (Gw ix). cbn [map] in Ei. injection Ei as Eia Eib Eik. cbn [name_entries map to_term term_labs flat_map app] in Gw. rewrite Eia, Eib, Eik in Gw. rewrite Gw.
      + f_equal. rewrite Ec, Ed, Eg, sum_over_cons. apply sum_to_ext. intros ic _. rewrite sum_over_cons. apply sum_to_ext. intros id _. rewrite sum_over_one. apply sum_to_ext. intros ig _.
        cbn [map fold_right fst snd name_entries to_term term_labs flat_map app]. rewrite mul_one.
        assert (Em : map (asg ix (map SpecEinsum.LName [c; d; g]) [ic; id; ig]) (map SpecEinsum.LName [c; d; g]) = [ic; id; ig]).
        { apply (assign_map _ lab_eqb_eq); [|reflexivity]. apply NoDup_map_inj; [congruence|]. repeat constructor; cbn [In]; intros X; repeat destruct X as [X|X]; try exact X; symmetry in X; revert X; apply Neq; cbn; tauto. }
        cbn [map] in Em. injection Em as Emc Emd Emg. rewrite Emc, Emd, Emg.
        assert (Out : forall s, s <> c -> s <> d -> s <> g -> asg ix [SpecEinsum.LName c; SpecEinsum.LName d; SpecEinsum.LName g] [ic; id; ig] (SpecEinsum.LName s) = ix (SpecEinsum.LName s)).
        { intros s H1 H2 H3. apply (assign_out _ lab_eqb_eq). intros [X|[X|[X|[]]]]; injection X as X; congruence. }
        rewrite (Out a), (Out b), (Out k), Eia, Eib, Eik; [reflexivity|..]; first [apply Neq; cbn; tauto|intros X; symmetry in X; revert X; apply Neq; cbn; tauto].
      + intros l [<-|[<-|[<-|[]]]]; rewrite ?Eia, ?Eib, ?Eik, ?Ea, ?Eb, ?Ek; assumption.
  Qed.
End Formulas.
