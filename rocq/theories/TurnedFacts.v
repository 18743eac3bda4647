(** * Transposed operands of einsum *)
From Coq Require Import Permutation.
From Verif Require Import Py Tensor TensorFacts ListFacts SpecSem SpecGrammar SpecEinsum SpecPattern SpecShape SpecForms SpecOps SpecElements SpecAdjoint SpecLinear SpecDocumented SpecTurned Parsing Compile Recipe Ops Backends Api
  ParseFacts ParseFacts2 ParseFacts3 StepFacts FrontFacts FrontFacts2 FrontFacts3 MainFacts MainFacts2 ReduceFacts MainFacts3 CallFacts RelabelFacts ApiFacts ApiFacts2 ApiFacts3 RedFacts Laws
  EinsumFacts EinsumFacts3 EinsumFacts4 EinsumLaws EinsumLaws2 Einsum DocumentedFacts DocumentedFacts2 PackLaws MixFacts MixFacts2 MixFacts3 MixFacts5 MixFacts7.

Lemma Forall2_In_r {X Y} (P : X -> Y -> Prop) l m b : Forall2 P l m -> In b m -> exists a, In a l /\ P a b.
Proof. induction 1 as [|a c l m H _ IH]; intros X0; [destruct X0|]. destruct X0 as [<-|X0]; [exists a; cbn; auto|]. destruct (IH X0) as (a' & H1 & H2). exists a'. cbn. auto. Qed.
Lemma dots_of_term es : length (filter (fun en => match en with EDots => true | EName _ => false end) es) = term_dots (to_term es).
Proof. induction es as [|[s|] es IH]; [reflexivity|exact IH|]. unfold term_dots, to_term in *. cbn. f_equal. exact IH. Qed.

Lemma ungrouped_plain E : ungrouped E -> plain E.
Proof. intros H X. unfold atoms in X. apply in_flat_map in X as (i & Hi & X). destruct (H i Hi) as [->|(s & -> & Hs)]; cbn in X; destruct X as [X|[]]; congruence. Qed.
Lemma ungrouped_numbers E : ungrouped E -> has_numbers E = false.
Proof.
  unfold has_numbers, atoms. induction E as [|i E IH]; intros U0; [reflexivity|]. apply ungrouped_cons in U0 as [Hi H].
  cbn [flat_map]. rewrite existsb_app, IH by auto. destruct Hi as [->|[t [-> _]]]; reflexivity.
Qed.
Lemma dots_keys E F : ungrouped E -> ungrouped F -> incl (keys E) (keys F) -> incl (keys F) (keys E) -> has_dots E = has_dots F.
Proof.
  intros UE UF I1 I2. apply eq_true_iff_eq. split; intros H; apply plain_key; try (apply ungrouped_plain; assumption); [apply I1|apply I2]; apply has_dots_key, H.
Qed.
Lemma labs_no_dots j k E : ungrouped E -> has_dots E = false -> labs_of j (entries_of E) = labs_of k (entries_of E).
Proof.
  intros UE D. assert (H : ~ In None (to_term (entries E))) by (intros X; apply in_none in X; [congruence|exact UE]). rewrite entries_of_entries.
  induction (to_term (entries E)) as [|[s|] t IH]; [reflexivity| |exfalso; apply H; left; reflexivity]. cbn [term_labs flat_map app]. f_equal. apply IH. intros Y. apply H. right. exact Y.
Qed.
Lemma labs_count e E : ungrouped E -> length (labs e E) = length (term_names (to_term (entries E))) + e * ndots E.
Proof.
  intros UL. induction E as [|i E IH]; [cbn; lia|]. apply ungrouped_cons in UL as [Hi H]. specialize (IH H).
  unfold labs in *. cbn [flat_map]. rewrite app_length, IH. unfold ndots, atoms. cbn [flat_map]. rewrite filter_app, app_length. fold (atoms E). fold (ndots E).
  unfold term_names, to_term, entries. cbn [map flat_map]. rewrite app_length.
  destruct Hi as [->|[t [-> _]]]; cbn [i_labs i_entry item_atoms filter is_dots length]; rewrite ?map_length, ?seq_length; unfold ndots; lia.
Qed.
Lemma labs_same e E F : ungrouped E -> ungrouped F -> incl (keys E) (keys F) -> incl (labs e E) (labs e F).
Proof. intros UE UF I1 a X. apply in_labs in X; auto. apply in_labs; auto. destruct X as [[s [-> [X Y]]]|[i [-> [X Y]]]]; [left; exists s; auto|right; exists i; auto]. Qed.

Section Flat.
  Context {A : Type} (r : runtime A) (Hok : runtime_ok r).
  Notation U := (rt_unicode r).

  Lemma flat_rearrange_dots q E F (len : lab pystr -> nat) e (x : tensor A) : reads U q E F -> ungrouped E -> ungrouped F -> incl (keys E) (keys F) -> incl (keys F) (keys E) ->
    (has_dots E = false -> e = 0) -> wf x -> shp x = map len (labs_of e (entries_of E)) ->
    exists y, rearrange r (One x) q [] = Ok y /\ wf y /\ shp y = map len (labs_of e (entries_of F)) /\
      forall ix, within len ix (labs_of e (entries_of E)) -> get y (map ix (labs_of e (entries_of F))) = get x (map ix (labs_of e (entries_of E))).
  Proof.
    intros Hr UE UF I1 I2 He Wx Sx. pose proof (ro_unicode _ Hok) as HU.
    destruct (proj1 (reads_split U HU q E F) Hr) as (l & rr & _ & WE & WF).
    assert (NE : NoDup (keys E)) by (eapply written_NoDup; eassumption). assert (NF : NoDup (keys F)) by (eapply written_NoDup; eassumption).
    assert (DE : ndots E <= 1) by (eapply written_ndots; eassumption).
    assert (EL : left_groups e E = map (fun a => [a]) (labs e E)) by (apply ungrouped_groups; auto).
    assert (ER : right_groups e E F = map (fun a => [a]) (labs e F)) by (apply ungrouped_groups; auto).
    assert (KE : labs_of e (entries_of E) = map (phi e) (labs e E)) by (apply entries_labs; auto). assert (KF : labs_of e (entries_of F) = map (phi e) (labs e F)) by (apply entries_labs; auto).
    rewrite KE, KF in *.
    assert (Hk : rank_fits E (length (shp x)) e).
    { rewrite Sx, !map_length, labs_count by exact UE. destruct (term_dots_count E UE) as [_ C]. unfold rank_fits. rewrite EinsumLaws.ndots_has in *. destruct (ndots E) as [|[|k]]; cbn in *; [|lia|lia]. rewrite He by reflexivity. lia. }
    destruct (single_call U Rearranging q (shp x) E F e) as [len' [Hl Hc]]; auto.
    { split; [apply ungrouped_numbers, UE|]. split; [apply ungrouped_numbers, UF|]. auto. }
    { apply dots_keys; auto. }
    { intros _ [g [X Y]]. destruct (UE _ X) as [Z|[t [Z _]]]; discriminate. }
    { rewrite EL, Sx, !map_length. reflexivity. }
    { rewrite EL. apply ones_single. }
    { rewrite EL, concat_ones. apply labs_NoDup; auto. }
    { rewrite EL, ER, !concat_ones. intros a X. apply in_app_iff in X as [X|X]; apply in_labs in X; auto; destruct X as [[s [-> _]]|[i [-> _]]]; exact I. }
    rewrite EL, concat_ones, Sx, map_map in Hl.
    assert (Hlen : forall a, In a (labs e E) -> len' a = len (phi e a)) by (intros a Ha; exact (proj1 map_ext_in_iff Hl a Ha)).
    assert (Nr : no_reserved []) by (intros s []).
    destruct (proj2 (rearrange_accepts r Hok x q [] (NoDup_nil _) Wx)) as (y & Ey); [split; [exact Nr|]; eauto|].
    destruct (proj1 (rearrange_iff r Hok x q [] _ _ e len' y (NoDup_nil _) Wx Nr Hc) Ey) as (Wy & Sy & Gy).
    pose proof (labs_same e F E UF UE I2) as IFE. exists y. split; [exact Ey|]. split; [exact Wy|].
    rewrite EL, ER in *. rewrite StepFacts.gshape_single, concat_ones in Sy by apply ones_single. split.
    - rewrite Sy, map_map. apply map_ext_in. intros a Ha. apply Hlen, IFE, Ha.
    - intros ix Hix. specialize (Gy (fun a => ix (phi e a))). rewrite !StepFacts.gindex_single, !concat_ones in Gy by apply ones_single. rewrite !map_map. apply Gy.
      intros a Ha. assert (In a (labs e E)) by (apply in_app_or in Ha as [Ha|Ha]; auto). rewrite Hlen by auto. apply Hix, in_map; auto.
  Qed.
  Lemma flat_rearrange q E F (len : lab pystr -> nat) e (x : tensor A) : reads U q E F -> ungrouped E -> ungrouped F -> incl (keys E) (keys F) -> incl (keys F) (keys E) ->
    wf x -> shp x = map len (labs_of e (entries_of E)) ->
    exists y, rearrange r (One x) q [] = Ok y /\ wf y /\ shp y = map len (labs_of e (entries_of F)) /\
      forall ix, within len ix (labs_of e (entries_of E)) -> get y (map ix (labs_of e (entries_of F))) = get x (map ix (labs_of e (entries_of E))).
  Proof.
    intros Hr UE UF I1 I2 Wx Sx. destruct (has_dots E) eqn:D.
    - apply flat_rearrange_dots; auto. congruence.
    - assert (D' : has_dots F = false) by (rewrite <- (dots_keys E F); auto).
      rewrite (labs_no_dots e 0 E UE D) in *. rewrite (labs_no_dots e 0 F UF D'). apply flat_rearrange_dots; auto.
  Qed.

  Context (add mul : A -> A -> A) (zero one : A).
  Context (add_comm : forall a b, add a b = add b a) (add_assoc : forall a b c, add a (add b c) = add (add a b) c).
  Context (lib : pystr -> list (tensor A) -> result (tensor A)) (HC : einsum_contract add mul zero one lib).

  Lemma entry_shape_labs (len : pystr -> nat) dots es :
    entry_shape len dots es = map (fun l => match l with SpecEinsum.LName s => len s | LDot k => nth (length dots - 1 - k) dots 0 end) (labs_of (length dots) es).
  Proof.
    induction es as [|[s|] es IH]; [reflexivity| |]; unfold entry_shape, to_term, term_labs in *; cbn [flat_map map]; rewrite map_app, <- IH; f_equal.
    rewrite !map_map. rewrite EinsumLaws.rev_seq, map_map. rewrite (map_ext_in _ (fun i => nth i dots 0)).
    - clear. induction dots as [|d dots IH]; [reflexivity|]. cbn [length seq map nth]. f_equal. rewrite <- seq_shift, map_map. exact IH.
    - intros i Hi. apply in_seq in Hi. f_equal. lia.
  Qed.

  Lemma entry_labs_in e es l : In l (labs_of e es) <-> (exists s, l = SpecEinsum.LName s /\ In (EName s) es) \/ (exists k, l = LDot k /\ k < e /\ In EDots es).
  Proof.
    induction es as [|[s|] es IH]; [split; [intros []|intros [(s & _ & [])|(k & _ & _ & [])]]| |]; unfold to_term, term_labs in *; cbn [map flat_map]; rewrite in_app_iff, IH; clear IH.
    - split.
      + intros [[<-|[]]|[(t & -> & H)|(k & -> & H & H')]]; [left; exists s; cbn; auto|left; exists t; cbn; auto|right; exists k; cbn; auto].
      + intros [(t & -> & [H|H])|(k & -> & H & [H'|H'])]; [injection H as ->; left; left; reflexivity|right; left; exists t; auto|discriminate|right; right; exists k; auto].
    - rewrite in_map_iff. split.
      + intros [(k & <- & H)|[(t & -> & H)|(k & -> & H & H')]]; [right; exists k; rewrite <- in_rev in H; apply in_seq in H; cbn; split; [reflexivity|]; split; [lia|auto]|left; exists t; cbn; auto|right; exists k; cbn; auto].
      + intros [(t & -> & [H|H])|(k & -> & H & H')]; [discriminate|right; left; exists t; auto|left; exists k; split; [reflexivity|]; rewrite <- in_rev; apply in_seq; lia].
  Qed.

  Lemma turned_calls (ops ops' : list (list entry * tensor A)) R R' p p' q (len : pystr -> nat) (dots : list nat) :
    einsum_reads U p (map fst ops) (entries_of R) -> einsum_reads U p' (map fst ops') (entries_of R') -> length (distinct (all_names (map fst ops))) <= 52 ->
    (forall es t, In (es, t) ops -> wf t /\ shp t = entry_shape len dots es /\ length (filter (fun en => match en with EDots => true | EName _ => false end) es) <= 1) ->
    Forall2 (turned r) ops ops' -> reads U q R' R -> ungrouped R -> ungrouped R' -> incl (keys R) (keys R') -> incl (keys R') (keys R) ->
    incl (entry_names (entries_of R)) (all_names (map fst ops)) -> (In EDots (entries_of R) <-> exists es t, In (es, t) ops /\ In EDots es) ->
    exists y z, einsum_with U lib (map (fun o => inl (snd o)) ops' ++ [inr p']) = Ok y /\ rearrange r (One y) q [] = Ok z /\
      einsum_with U lib (map (fun o => inl (snd o)) ops ++ [inr p]) = Ok z.
  Proof.
    intros Hp Hp' H52 Hops HT Hq UR UR' K1 K2 HR HD. pose proof (ro_unicode _ Hok) as HU.
    set (e := length dots). set (ln := fun l => match l with SpecEinsum.LName s => len s | LDot k => nth (length dots - 1 - k) dots 0 end).
    assert (Hes : forall es, entry_shape len dots es = map ln (labs_of e es)) by (intros es; apply entry_shape_labs).
    destruct (proj1 (reads_split U HU q R' R) Hq) as (l & rr & _ & WR' & WR).
    assert (NR : NoDup (keys R)) by (eapply written_NoDup; eassumption). assert (NR' : NoDup (keys R')) by (eapply written_NoDup; eassumption).
    assert (DR : ndots R <= 1) by (eapply written_ndots; eassumption). assert (DR' : ndots R' <= 1) by (eapply written_ndots; eassumption).
    (* operands *)
    assert (Hsame : Forall2 (fun o o' => wf (snd o') /\ shp (snd o') = map ln (labs_of e (fst o')) /\ term_dots (to_term (fst o')) <= 1 /\ (forall s, In s (entry_names (fst o)) <-> In s (entry_names (fst o'))) /\
        (forall l, In l (labs_of e (fst o)) <-> In l (labs_of e (fst o'))) /\ (In EDots (fst o) <-> In EDots (fst o')) /\
        forall ix, within ln ix (labs_of e (fst o)) -> elt zero (snd o') (map ix (labs_of e (fst o'))) = elt zero (snd o) (map ix (labs_of e (fst o)))) ops ops').
    { clear -HT Hops Hes Hok. induction HT as [|[es t] [es' t'] ops ops' Ht _ IH]; constructor; [|apply IH; intros; apply Hops; right; assumption].
      destruct (Hops es t (or_introl eq_refl)) as (Wt & St & Dt). rewrite Hes in St. rewrite dots_of_term in Dt. unfold turned in Ht. cbn [fst snd] in *. destruct Ht as [E|(q & E & F & Hr & UE & UF & I1 & I2 & -> & -> & Et)].
      - injection E as -> ->. split; [exact Wt|]. split; [exact St|]. split; [exact Dt|]. split; [tauto|]. split; [tauto|]. split; [tauto|reflexivity].
      - cbn [fst snd] in *. destruct (flat_rearrange q E F ln e t Hr UE UF I1 I2 Wt St) as (y & Ey & Wy & Sy & Gy). rewrite Et in Ey. injection Ey as <-.
        assert (D : In EDots (entries_of E) <-> In EDots (entries_of F)).
        { assert (X : forall E, ungrouped E -> (In EDots (entries_of E) <-> has_dots E = true)).
          { clear. intros E UE. split.
            - intros X. apply in_none; [|exact UE]. change None with ((fun en => match en with EName s => Some s | EDots => None end) EDots). apply in_map, X.
            - intros X. apply has_none in X; [|exact UE]. unfold to_term in X. apply in_map_iff in X as ([s|] & X & Y); [discriminate|exact Y]. }
          rewrite !X, (dots_keys E F) by auto. tauto. }
        split; [exact Wy|]. split; [exact Sy|]. split; [|split; [|split; [|split; [exact D|]]]].
        + rewrite entries_of_entries. destruct (term_dots_count F UF) as [-> _]. destruct (proj1 (reads_split U (ro_unicode _ Hok) q E F) Hr) as (l & rr & _ & _ & WF). eapply written_ndots; eassumption.
        + intros s. rewrite !entries_of_entries, !entry_names_keys by assumption. split; intros [X Y]; auto.
        + intros l. rewrite !entries_of_entries, !entries_labs, !in_map_iff by assumption. split; intros (a & Ha & X); exists a; (split; [exact Ha|]); [exact (labs_same e E F UE UF I1 a X)|exact (labs_same e F E UF UE I2 a X)].
        + intros ix Hix. unfold elt. rewrite Gy by exact Hix. reflexivity. }
    assert (Names : forall s, In s (all_names (map fst ops)) <-> In s (all_names (map fst ops'))).
    { clear -Hsame. unfold all_names. induction Hsame as [|o o' ops ops' (_ & _ & _ & H & _) _ IH]; [tauto|]. intros s. cbn [map flat_map]. rewrite !in_app_iff, H, IH. tauto. }
    assert (Labs : forall l, In l (flat_map (fun o => labs_of e (fst o)) ops) <-> In l (flat_map (fun o => labs_of e (fst o)) ops')).
    { clear -Hsame. induction Hsame as [|o o' ops ops' (_ & _ & _ & _ & H & _) _ IH]; [tauto|]. intros s. cbn [map flat_map]. rewrite !in_app_iff, H, IH. tauto. }
    assert (Edots : (exists es t, In (es, t) ops /\ In EDots es) <-> exists es t, In (es, t) ops' /\ In EDots es).
    { clear -Hsame. induction Hsame as [|[es t] [es' t'] ops ops' (_ & _ & _ & _ & _ & H & _) _ IH]; [split; intros (? & ? & [] & _)|]. cbn [fst] in H. split.
      - intros (fs & u & [E|X] & Y); [injection E as <- <-; exists es', t'; cbn; tauto|]. destruct (proj1 IH) as (gs & v & X' & Y'); [eauto|]. exists gs, v. cbn. auto.
      - intros (fs & u & [E|X] & Y); [injection E as <- <-; exists es, t; cbn; tauto|]. destruct (proj2 IH) as (gs & v & X' & Y'); [eauto|]. exists gs, v. cbn. auto. }
    assert (Same : forall jx, within ln jx (flat_map (fun o => labs_of e (fst o)) ops) ->
      map (fun o => elt zero (snd o) (map jx (labs_of e (fst o)))) ops' = map (fun o => elt zero (snd o) (map jx (labs_of e (fst o)))) ops).
    { clear -Hsame. intros jx. induction Hsame as [|o o' ops ops' (_ & _ & _ & _ & _ & _ & H) _ IH]; intros Hall; [reflexivity|]. cbn [map flat_map] in *.
      rewrite H by (intros a Ha; apply Hall, in_or_app; auto). f_equal. apply IH. intros a Ha. apply Hall, in_or_app. auto. }
    assert (ldec : forall a b : lab pystr, {a = b} + {a <> b}) by (decide equality; [apply str_eq_dec|apply Nat.eq_dec]).
    set (mids := filter (fun l => if in_dec ldec l (labs_of e (entries_of R)) then false else true) (nodup ldec (flat_map (fun o => labs_of e (fst o)) ops))).
    assert (Nm : NoDup mids) by (apply NoDup_filter, NoDup_nodup).
    assert (Hm : forall l, In l mids <-> In l (flat_map (fun o => labs_of e (fst o)) ops) /\ ~ In l (labs_of e (entries_of R))).
    { intros l0. unfold mids. rewrite filter_In, nodup_In. destruct (in_dec ldec l0 (labs_of e (entries_of R))); split; intros [X Y]; try discriminate; try contradiction; auto. }
    assert (LRR : forall l, In l (labs_of e (entries_of R)) <-> In l (labs_of e (entries_of R'))).
    { intros l0. rewrite !entries_of_entries, !entries_labs, !in_map_iff by assumption. split; intros (a & Ha & X); exists a; (split; [exact Ha|]); [exact (labs_same e R R' UR UR' K1 a X)|exact (labs_same e R' R UR' UR K2 a X)]. }
    assert (NDR : forall E, ungrouped E -> NoDup (keys E) -> NoDup (labs_of e (entries_of E))).
    { intros E UE NE. rewrite entries_of_entries, entries_labs by exact UE. apply NoDup_map_inj; [|apply labs_NoDup; auto]. intros a b Ha Hb X. rewrite <- (psi_phi e E a), <- (psi_phi e E b), X; auto. }
    destruct (einsum_exact add mul zero one add_comm add_assoc lib HC U HU ln e p ops (entries_of R) mids Hp H52) as (z & Ez & Wz & Sz & Gz).
    { intros es t Hin. destruct (Hops es t Hin) as (Wt & St & Dt). rewrite Hes in St. rewrite dots_of_term in Dt. auto. }
    { rewrite entries_of_entries. apply entry_names_NoDup; auto. }
    { exact HR. }
    { rewrite entries_of_entries. destruct (term_dots_count R UR) as [-> _]. exact DR. }
    { exact HD. }
    { exact Nm. }
    { exact Hm. }
    destruct (einsum_exact add mul zero one add_comm add_assoc lib HC U HU ln e p' ops' (entries_of R') mids Hp') as (y & Ey & Wy & Sy & Gy).
    { etransitivity; [apply distinct_bound|exact H52]. intros s Hs. rewrite distinct_In. apply Names, Hs. }
    { intros es t Hin. destruct (Forall2_In_r _ _ _ (es, t) Hsame Hin) as (o & _ & Wt & St & Dt & _). cbn [fst snd] in *. auto. }
    { rewrite entries_of_entries. apply entry_names_NoDup; auto. }
    { intros s Hs. apply Names, HR. rewrite entries_of_entries, entry_names_keys in * by assumption. split; [apply K2|]; tauto. }
    { rewrite entries_of_entries. destruct (term_dots_count R' UR') as [-> _]. exact DR'. }
    { rewrite <- Edots, <- HD.
      assert (X : forall E, ungrouped E -> (In EDots (entries_of E) <-> has_dots E = true)).
      { clear. intros E UE. split.
        - intros X. apply in_none; [|exact UE]. change None with ((fun en => match en with EName s => Some s | EDots => None end) EDots). apply in_map, X.
        - intros X. apply has_none in X; [|exact UE]. unfold to_term in X. apply in_map_iff in X as ([s|] & X & Y); [discriminate|exact Y]. }
      rewrite !X, (dots_keys R R') by auto. tauto. }
    { exact Nm. }
    { intros l0. rewrite Hm, Labs, LRR. tauto. }
    destruct (flat_rearrange q R' R ln e y Hq UR' UR K2 K1 Wy Sy) as (z' & Ez' & Wz' & Sz' & Gz').
    exists y, z. split; [exact Ey|]. split; [|exact Ez]. rewrite Ez'. f_equal. apply tensor_ext; [exact Wz'|exact Wz|congruence|]. intros idx Hidx. rewrite Sz' in Hidx.
    set (ix := assign (lab_eqb str_eqb) (fun _ => 0) (labs_of e (entries_of R)) idx).
    assert (Ei : map ix (labs_of e (entries_of R)) = idx) by (apply (assign_map _ DocumentedFacts.lab_eqb_eq); [apply NDR; auto|]; apply inb_length in Hidx; rewrite map_length in Hidx; exact Hidx).
    assert (Hix : within ln ix (labs_of e (entries_of R))) by (apply (within_assign _ DocumentedFacts.lab_eqb_eq); [apply NDR; auto|exact Hidx]).
    rewrite <- Ei, (Gz ix Hix), Gz' by (intros a Ha; apply Hix, LRR, Ha). rewrite Gy by (intros a Ha; apply Hix, LRR, Ha). f_equal. unfold sum_over. f_equal. apply map_ext_in. intros v Hv. apply indices_In in Hv.
    assert (Hall : within ln (assign (lab_eqb str_eqb) ix mids v) (flat_map (fun o => labs_of e (fst o)) ops)).
    { intros a Ha. destruct (in_dec ldec a (labs_of e (entries_of R))) as [X|X].
      - rewrite (assign_out _ DocumentedFacts.lab_eqb_eq); [apply Hix, X|]. intros Y. apply Hm in Y. tauto.
      - apply (within_assign _ DocumentedFacts.lab_eqb_eq ln ix mids v Nm Hv). apply Hm. auto. }
    f_equal. apply Same, Hall.
  Qed.
End Flat.
