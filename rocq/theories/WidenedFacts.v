(** * Repeated operands of einsum *)
From Coq Require Import Permutation.
From Verif Require Import Py Tensor TensorFacts ListFacts SpecSem SpecGrammar SpecEinsum SpecPattern SpecShape SpecForms SpecOps SpecElements SpecAdjoint SpecLinear SpecDocumented SpecTurned SpecWidened Parsing Compile Recipe Ops Backends Api
  ParseFacts ParseFacts2 ParseFacts3 StepFacts FrontFacts FrontFacts2 FrontFacts3 MainFacts MainFacts2 ReduceFacts MainFacts3 CallFacts RelabelFacts ApiFacts ApiFacts2 ApiFacts3 RedFacts Laws
  EinsumFacts EinsumFacts3 EinsumFacts4 EinsumLaws EinsumLaws2 Einsum DocumentedFacts DocumentedFacts2 PackLaws MixFacts MixFacts2 MixFacts3 MixFacts5 MixFacts7 TurnedFacts SumAfterFacts.

Section Flat.
  Context {A : Type} (r : runtime A) (Hok : runtime_ok r).
  Notation U := (rt_unicode r).

  Lemma flat_repeat_dots q E F sizes (len : lab pystr -> nat) e (x y : tensor A) : reads U q E F -> ungrouped E -> ungrouped F ->
    NoDup (map fst sizes) -> (forall s z, In (s, z) sizes -> z = Z.of_nat (len (SpecEinsum.LName s))) ->
    (has_dots E = false -> e = 0) -> wf x -> shp x = map len (labs_of e (entries_of E)) -> repeat_ r (One x) q sizes = Ok y ->
    has_dots E = has_dots F /\ incl (keys E) (keys F) /\ wf y /\ shp y = map len (labs_of e (entries_of F)) /\
      forall ix, within len ix (labs_of e (entries_of F)) -> get y (map ix (labs_of e (entries_of F))) = get x (map ix (labs_of e (entries_of E))).
  Proof.
    intros Hr UE UF Hn Hz He Wx Sx Ey. pose proof (ro_unicode _ Hok) as HU.
    assert (Hs : repeat_sizes_ok r q sizes) by (intros _ L0 R0 s0 _ Hin; specialize (Hz _ _ Hin); lia).
    destruct (repeat_moves r Hok x q sizes y Hn Wx Hs Ey) as (L & R & e' & len' & [Hc _] & (Wy & Sy & Gy)).
    destruct (reads_fun U HU q E F L R Hr (co_reads _ _ _ _ _ _ _ _ _ Hc)) as [<- <-].
    destruct (co_ident _ _ _ _ _ _ _ _ _ Hc) as (_ & I1 & I2).
    assert (Dd : has_dots E = has_dots F).
    { apply eq_true_iff_eq. split; [|apply (co_dots _ _ _ _ _ _ _ _ _ Hc)]. intros X. apply plain_key; [apply ungrouped_plain, UF|]. apply I1, has_dots_key, X. }
    destruct (proj1 (reads_split U HU q E F) Hr) as (l & rr & _ & WE & WF).
    assert (NE : NoDup (keys E)) by (eapply written_NoDup; eassumption). assert (NF : NoDup (keys F)) by (eapply written_NoDup; eassumption).
    assert (DE : ndots E <= 1) by (eapply written_ndots; eassumption).
    assert (Ee : e' = e).
    { pose proof (co_rank _ _ _ _ _ _ _ _ _ Hc) as Hk. rewrite Sx, map_length, entries_of_entries, entries_labs, map_length, labs_count in Hk by exact UE. destruct (term_dots_count E UE) as [_ C].
      unfold rank_fits in Hk. rewrite EinsumLaws.ndots_has in *. destruct (ndots E) as [|[|k]]; cbn in *; [|lia|lia]. rewrite He by reflexivity. lia. }
    subst e'.
    assert (EL : left_groups e E = map (fun a => [a]) (labs e E)) by (apply ungrouped_groups; auto).
    assert (ER : right_groups e E F = map (fun a => [a]) (labs e F)) by (apply ungrouped_groups; auto).
    assert (KE : labs_of e (entries_of E) = map (phi e) (labs e E)) by (apply entries_labs; auto). assert (KF : labs_of e (entries_of F) = map (phi e) (labs e F)) by (apply entries_labs; auto).
    destruct (co_fits _ _ _ _ _ _ _ _ _ Hc) as (Hl & _ & Hsz). rewrite KE, KF in *. rewrite EL, ER in *.
    rewrite StepFacts.gshape_single, concat_ones, Sx, map_map in Hl by apply ones_single.
    assert (HlenE : forall a, In a (labs e E) -> len' a = len (phi e a)) by (intros a Ha; exact (proj1 map_ext_in_iff Hl a Ha)).
    pose proof (labs_same e E F UE UF I1) as IEF.
    assert (HlenF : forall a, In a (labs e F) -> len' a = len (phi e a)).
    { intros a Ha. pose proof Ha as Hb. apply in_labs in Ha; [|exact UF]. destruct Ha as [(s & -> & X & Y)|(i & -> & X & Y)].
      - apply I2, in_app_or in X as [X|X]; [apply HlenE, in_labs; auto; left; exists s; auto|]. apply in_map_iff in X as ([s' z] & E1 & X). cbn in E1. subst s'.
        pose proof (Hz _ _ X) as H1. pose proof (Hsz _ _ X) as H2. cbn [phi]. lia.
      - apply HlenE, in_labs; auto. right. exists i. split; [reflexivity|]. split; [|exact Y]. apply has_dots_key. rewrite Dd. apply plain_key; [apply ungrouped_plain, UF|exact X]. }
    split; [exact Dd|]. split; [exact I1|]. split; [exact Wy|].
    rewrite StepFacts.gshape_single, concat_ones in Sy by apply ones_single. split.
    - rewrite Sy, map_map. apply map_ext_in, HlenF.
    - intros ix Hix. specialize (Gy (fun a => ix (phi e a))). rewrite !StepFacts.gindex_single, !concat_ones in Gy by apply ones_single. rewrite !map_map. apply Gy.
      intros a Ha. assert (In a (labs e F)) by (apply in_app_or in Ha as [Ha|Ha]; auto). rewrite HlenF by auto. apply Hix, in_map; auto.
  Qed.
  Lemma flat_repeat q E F sizes (len : lab pystr -> nat) e (x y : tensor A) : reads U q E F -> ungrouped E -> ungrouped F ->
    NoDup (map fst sizes) -> (forall s z, In (s, z) sizes -> z = Z.of_nat (len (SpecEinsum.LName s))) ->
    wf x -> shp x = map len (labs_of e (entries_of E)) -> repeat_ r (One x) q sizes = Ok y ->
    has_dots E = has_dots F /\ incl (keys E) (keys F) /\ wf y /\ shp y = map len (labs_of e (entries_of F)) /\
      forall ix, within len ix (labs_of e (entries_of F)) -> get y (map ix (labs_of e (entries_of F))) = get x (map ix (labs_of e (entries_of E))).
  Proof.
    intros Hr UE UF Hn Hz Wx Sx Ey. destruct (has_dots E) eqn:D.
    - rewrite <- D. eapply flat_repeat_dots; eauto. congruence.
    - rewrite (labs_no_dots e 0 E UE D) in *. rewrite <- D.
      destruct (flat_repeat_dots q E F sizes len 0 x y Hr UE UF Hn Hz (fun _ => eq_refl) Wx Sx Ey) as (H1 & H2 & H3 & H4 & H5).
      rewrite (labs_no_dots e 0 F UF) by congruence. auto.
  Qed.

  Context (add mul : A -> A -> A) (zero one : A).
  Context (add_comm : forall a b, add a b = add b a) (add_assoc : forall a b c, add a (add b c) = add (add a b) c).
  Context (lib : pystr -> list (tensor A) -> result (tensor A)) (HC : einsum_contract add mul zero one lib).

  Lemma widened_calls (ops ops' : list (list entry * tensor A)) R p p' (len : pystr -> nat) (dots : list nat) :
    einsum_reads U p (map fst ops) (entries_of R) -> einsum_reads U p' (map fst ops') (entries_of R) -> length (distinct (all_names (map fst ops))) <= 52 ->
    (forall es t, In (es, t) ops -> wf t /\ shp t = entry_shape len dots es /\ length (filter (fun en => match en with EDots => true | EName _ => false end) es) <= 1) ->
    Forall2 (widened r len) ops ops' -> incl (all_names (map fst ops')) (all_names (map fst ops)) -> ungrouped R -> NoDup (keys R) -> ndots R <= 1 ->
    incl (entry_names (entries_of R)) (all_names (map fst ops)) -> (In EDots (entries_of R) <-> exists es t, In (es, t) ops /\ In EDots es) ->
    exists z, einsum_with U lib (map (fun o => inl (snd o)) ops' ++ [inr p']) = Ok z /\ einsum_with U lib (map (fun o => inl (snd o)) ops ++ [inr p]) = Ok z.
  Proof.
    intros Hp Hp' H52 Hops HT Hnew UR NR DR HR HD. pose proof (ro_unicode _ Hok) as HU.
    set (e := length dots). set (ln := fun l => match l with SpecEinsum.LName s => len s | LDot k => nth (length dots - 1 - k) dots 0 end).
    assert (Hes : forall es, entry_shape len dots es = map ln (labs_of e es)) by (intros es; apply entry_shape_labs).
    (* operands *)
    assert (Hsame : Forall2 (fun o o' => wf (snd o') /\ shp (snd o') = map ln (labs_of e (fst o')) /\ term_dots (to_term (fst o')) <= 1 /\ (forall s, In s (entry_names (fst o)) -> In s (entry_names (fst o'))) /\
        (forall l, In l (labs_of e (fst o)) -> In l (labs_of e (fst o'))) /\ (In EDots (fst o) <-> In EDots (fst o')) /\
        forall ix, within ln ix (labs_of e (fst o')) -> elt zero (snd o') (map ix (labs_of e (fst o'))) = elt zero (snd o) (map ix (labs_of e (fst o)))) ops ops').
    { clear -HT Hops Hes Hok. induction HT as [|[es t] [es' t'] ops ops' Ht _ IH]; constructor; [|apply IH; intros; apply Hops; right; assumption].
      destruct (Hops es t (or_introl eq_refl)) as (Wt & St & Dt). rewrite Hes in St. rewrite dots_of_term in Dt. unfold widened in Ht. cbn [fst snd] in *. destruct Ht as [E|(q & E & F & sizes & Hr & UE & UF & -> & -> & Hn & Hz & Et)].
      - injection E as -> ->. split; [exact Wt|]. split; [exact St|]. split; [exact Dt|]. split; [tauto|]. split; [tauto|]. split; [tauto|reflexivity].
      - cbn [fst snd] in *. destruct (flat_repeat q E F sizes ln e t t' Hr UE UF Hn Hz Wt St Et) as (Dd & I1 & Wy & Sy & Gy).
        split; [exact Wy|]. split; [exact Sy|]. split; [|split; [|split; [|split]]].
        + rewrite entries_of_entries. destruct (term_dots_count F UF) as [-> _]. destruct (proj1 (reads_split U (ro_unicode _ Hok) q E F) Hr) as (l & rr & _ & _ & WF). eapply written_ndots; eassumption.
        + intros s. rewrite !entries_of_entries, !entry_names_keys by assumption. intros [X Y]; auto.
        + intros l. rewrite !entries_of_entries, !entries_labs, !in_map_iff by assumption. intros (a & Ha & X); exists a; (split; [exact Ha|]). exact (labs_same e E F UE UF I1 a X).
        + rewrite !entries_dots, Dd by assumption. tauto.
        + intros ix Hix. unfold elt. rewrite Gy by exact Hix. reflexivity. }
    assert (Names : forall s, In s (all_names (map fst ops)) -> In s (all_names (map fst ops'))).
    { clear -Hsame. unfold all_names. induction Hsame as [|o o' ops ops' (_ & _ & _ & H & _) _ IH]; [tauto|]. intros s. cbn [map flat_map]. rewrite !in_app_iff. intros [X|X]; auto. }
    assert (Edots : (exists es t, In (es, t) ops /\ In EDots es) <-> exists es t, In (es, t) ops' /\ In EDots es).
    { clear -Hsame. induction Hsame as [|[es t] [es' t'] ops ops' (_ & _ & _ & _ & _ & H & _) _ IH]; [split; intros (? & ? & [] & _)|]. cbn [fst] in H. split.
      - intros (fs & u & [E|X] & Y); [injection E as <- <-; exists es', t'; cbn; tauto|]. destruct (proj1 IH) as (gs & v & X' & Y'); [eauto|]. exists gs, v. cbn. auto.
      - intros (fs & u & [E|X] & Y); [injection E as <- <-; exists es, t; cbn; tauto|]. destruct (proj2 IH) as (gs & v & X' & Y'); [eauto|]. exists gs, v. cbn. auto. }
    assert (Labs : forall l, In l (flat_map (fun o => labs_of e (fst o)) ops) <-> In l (flat_map (fun o => labs_of e (fst o)) ops')).
    { assert (Nm : forall l (os : list (list entry * tensor A)), In l (flat_map (fun o => labs_of e (fst o)) os) <->
        (exists s, l = SpecEinsum.LName s /\ In s (all_names (map fst os))) \/ (exists k, l = LDot k /\ k < e /\ exists es t, In (es, t) os /\ In EDots es)).
      { clear. intros l os. rewrite in_flat_map. unfold all_names. split.
        - intros ([es t] & Hin & H). cbn [fst] in H. apply (entry_labs_in e es l) in H as [(s & -> & H)|(k & -> & H & H')].
          + left. exists s. split; [reflexivity|]. apply in_flat_map. exists es. split; [apply (in_map fst) in Hin; exact Hin|]. unfold entry_names. apply in_flat_map. exists (EName s). split; [exact H|left; reflexivity].
          + right. exists k. split; [reflexivity|]. split; [exact H|]. eauto.
        - intros [(s & -> & H)|(k & -> & Hk & es & t & Hin & H)].
          + apply in_flat_map in H as (es & Hin & H). apply in_map_iff in Hin as ([es' t] & <- & Hin). exists (es', t). split; [exact Hin|]. apply entry_labs_in. left. exists s. split; [reflexivity|].
            unfold entry_names in H. apply in_flat_map in H as ([s'|] & H & X); [|destruct X]. destruct X as [<-|[]]. exact H.
          + exists (es, t). split; [exact Hin|]. apply entry_labs_in. right. exists k. auto. }
      intros l. rewrite !Nm. split; (intros [(s & -> & H)|(k & -> & Hk & H)]; [left; exists s; split; [reflexivity|]; auto|right; exists k; split; [reflexivity|]; split; [exact Hk|]; apply Edots, H]). }
    assert (Same : forall jx, within ln jx (flat_map (fun o => labs_of e (fst o)) ops') ->
      map (fun o => elt zero (snd o) (map jx (labs_of e (fst o)))) ops' = map (fun o => elt zero (snd o) (map jx (labs_of e (fst o)))) ops).
    { clear -Hsame. intros jx. induction Hsame as [|o o' ops ops' (_ & _ & _ & _ & _ & _ & H) _ IH]; intros Hall; [reflexivity|]. cbn [map flat_map] in *.
      rewrite H by (intros a Ha; apply Hall, in_or_app; auto). f_equal. apply IH. intros a Ha. apply Hall, in_or_app. auto. }
    assert (ldec : forall a b : lab pystr, {a = b} + {a <> b}) by (decide equality; [apply str_eq_dec|apply Nat.eq_dec]).
    set (mids := filter (fun l => if in_dec ldec l (labs_of e (entries_of R)) then false else true) (nodup ldec (flat_map (fun o => labs_of e (fst o)) ops))).
    assert (Nm : NoDup mids) by (apply NoDup_filter, NoDup_nodup).
    assert (Hm : forall l, In l mids <-> In l (flat_map (fun o => labs_of e (fst o)) ops) /\ ~ In l (labs_of e (entries_of R))).
    { intros l0. unfold mids. rewrite filter_In, nodup_In. destruct (in_dec ldec l0 (labs_of e (entries_of R))); split; intros [X Y]; try discriminate; try contradiction; auto. }
    assert (NDR : NoDup (labs_of e (entries_of R))).
    { rewrite entries_of_entries, entries_labs by exact UR. apply NoDup_map_inj; [|apply labs_NoDup; auto]. intros a b Ha Hb X. rewrite <- (psi_phi e R a), <- (psi_phi e R b), X; auto. }
    destruct (einsum_exact add mul zero one add_comm add_assoc lib HC U HU ln e p ops (entries_of R) mids Hp H52) as (z & Ez & Wz & Sz & Gz).
    { intros es t Hin. destruct (Hops es t Hin) as (Wt & St & Dt). rewrite Hes in St. rewrite dots_of_term in Dt. auto. }
    { rewrite entries_of_entries. apply entry_names_NoDup; auto. }
    { exact HR. }
    { rewrite entries_of_entries. destruct (term_dots_count R UR) as [-> _]. exact DR. }
    { exact HD. }
    { exact Nm. }
    { exact Hm. }
    destruct (einsum_exact add mul zero one add_comm add_assoc lib HC U HU ln e p' ops' (entries_of R) mids Hp') as (y & Ey & Wy & Sy & Gy).
    { etransitivity; [apply distinct_bound|exact H52]. intros s Hs. rewrite distinct_In. apply Hnew, Hs. }
    { intros es t Hin. destruct (Forall2_In_r _ _ _ (es, t) Hsame Hin) as (o & _ & Wt & St & Dt & _). cbn [fst snd] in *. auto. }
    { rewrite entries_of_entries. apply entry_names_NoDup; auto. }
    { intros s Hs. apply Names, HR, Hs. }
    { rewrite entries_of_entries. destruct (term_dots_count R UR) as [-> _]. exact DR. }
    { rewrite <- Edots. exact HD. }
    { exact Nm. }
    { intros l0. rewrite Hm, Labs. tauto. }
    exists z. split; [|exact Ez]. rewrite Ey. f_equal. apply tensor_ext; [exact Wy|exact Wz|congruence|]. intros idx Hidx. rewrite Sy in Hidx.
    set (ix := assign (lab_eqb str_eqb) (fun _ => 0) (labs_of e (entries_of R)) idx).
    assert (Ei : map ix (labs_of e (entries_of R)) = idx) by (apply (assign_map _ DocumentedFacts.lab_eqb_eq); [exact NDR|]; apply inb_length in Hidx; rewrite map_length in Hidx; exact Hidx).
    assert (Hix : within ln ix (labs_of e (entries_of R))) by (apply (within_assign _ DocumentedFacts.lab_eqb_eq); [exact NDR|exact Hidx]).
    rewrite <- Ei, (Gz ix Hix), (Gy ix Hix). f_equal. unfold sum_over. f_equal. apply map_ext_in. intros v Hv. apply indices_In in Hv. f_equal. apply Same.
    intros a Ha. apply Labs in Ha. destruct (in_dec ldec a (labs_of e (entries_of R))) as [X|X].
    - rewrite (assign_out _ DocumentedFacts.lab_eqb_eq); [apply Hix, X|]. intros Y. apply Hm in Y. tauto.
    - apply (within_assign _ DocumentedFacts.lab_eqb_eq ln ix mids v Nm Hv). apply Hm. auto.
  Qed.
End Flat.
