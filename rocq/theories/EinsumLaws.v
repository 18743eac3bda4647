(** * einsum of one tensor *)
From Verif Require Import Py Tensor ListFacts TensorFacts SpecSem SpecGrammar SpecForms SpecEinsum SpecPattern SpecShape SpecOps Parsing Recipe Ops Backends Einsum Api ParseFacts ParseFacts2 ParseFacts3 StepFacts FrontFacts FrontFacts2 FrontFacts3 MainFacts ReduceFacts MainFacts3 RedFacts Laws CallFacts ApiFacts ApiFacts2 ApiFacts3 ApiFacts7 ShapeLaws RelabelLaws PackLaws EinsumFacts EinsumFacts2 EinsumFacts3 EinsumFacts4.

Definition i_labs (e : nat) (i : item) : list label :=
  match i with Atom (AName s) => [SpecPattern.LName s] | Atom ADots => map LDots (seq 0 e) | _ => [] end.
Definition labs (e : nat) (E : expr) : list label := flat_map (i_labs e) E.
Definition i_entry (i : item) : entry := match i with Atom (AName s) => EName s | _ => EDots end.
Definition entries (E : expr) : list entry := map i_entry E.
Definition phi (e : nat) (a : label) : lab pystr :=
  match a with SpecPattern.LName s => SpecEinsum.LName s | LDots i => LDot (e - 1 - i) | LNum _ _ => LDot e end.
Definition psi (e : nat) (l : lab pystr) : label :=
  match l with SpecEinsum.LName s => SpecPattern.LName s | LDot k => LDots (e - 1 - k) end.

Lemma ungrouped_cons i E : ungrouped (i :: E) -> (i = Atom ADots \/ exists s, i = Atom (AName s) /\ s <> ell_name) /\ ungrouped E.
Proof. intros H. split; [apply H; left; auto|]. intros j Hj. apply H. right; auto. Qed.

Lemma ungrouped_groups d e E : ungrouped E -> forall k, groups d e k E = map (fun a => [a]) (labs e E).
Proof.
  induction E as [|i E IH]; intros H k; [reflexivity|]. apply ungrouped_cons in H as [Hi H]. cbn [groups labs flat_map]. rewrite map_app, IH by auto.
  f_equal. destruct Hi as [->|[s [-> Hs]]]; [reflexivity|]. cbn [item_groups i_labs map].
  assert (E0 : stands_for_dots d (AName s) = false).
  { cbn. destruct (str_eqb s ell_name) eqn:X; [apply str_eqb_eq in X; contradiction|]. apply andb_false_r. }
  rewrite E0. unfold atom_labels. rewrite E0. reflexivity.
Qed.
Lemma concat_ones {X} (l : list X) : concat (map (fun a => [a]) l) = l.
Proof. induction l as [|a l IH]; [reflexivity|]. cbn. f_equal. exact IH. Qed.
Lemma ones_single {X} (l : list X) : Forall (fun g => length g = 1) (map (fun a => [a]) l).
Proof. induction l; constructor; auto. Qed.

Lemma rev_seq e : rev (seq 0 e) = map (fun i => e - 1 - i) (seq 0 e).
Proof.
  induction e as [|e IH]; [reflexivity|]. rewrite seq_S at 1. rewrite rev_app_distr. cbn [rev app plus].
  cbn [seq map]. f_equal; [lia|]. rewrite IH, <- seq_shift, map_map. apply map_ext. intros i. lia.
Qed.
Lemma entries_labs e E : ungrouped E -> term_labs e (to_term (entries E)) = map (phi e) (labs e E).
Proof.
  induction E as [|i E IH]; intros H; [reflexivity|]. apply ungrouped_cons in H as [Hi H].
  unfold term_labs, to_term, entries, labs in *. cbn [map flat_map]. rewrite map_app, IH by auto. f_equal.
  destruct Hi as [->|[s [-> _]]]; [|reflexivity]. cbn. rewrite rev_seq, !map_map. reflexivity.
Qed.

Lemma in_labs e E a : ungrouped E -> In a (labs e E) <->
  (exists s, a = SpecPattern.LName s /\ In s (keys E) /\ s <> ell_name) \/ (exists i, a = LDots i /\ In ell_name (keys E) /\ i < e).
Proof.
  induction E as [|i E IH]; intros H.
  - split; [intros []|]. intros [[s [_ [[] _]]]|[i [_ [[] _]]]].
  - apply ungrouped_cons in H as [Hi H]. unfold labs. cbn [flat_map]. rewrite in_app_iff. fold (labs e E). rewrite IH by auto.
    unfold keys, atoms. cbn [flat_map]. rewrite flat_map_app. fold (atoms E) (keys E).
    destruct Hi as [->|[s [-> Hs]]]; cbn [i_labs item_atoms flat_map atom_key app In].
    + rewrite in_map_iff. split.
      * intros [[i [<- X]]|[[s [-> [X Y]]]|[i [-> [X Y]]]]].
        -- right. exists i. apply in_seq in X. repeat split; auto. lia.
        -- left. exists s. auto.
        -- right. exists i. auto.
      * intros [[s [-> [[X|X] Y]]]|[i [-> [X Y]]]]; [congruence|right; left; eauto|]. left. exists i. split; auto. apply in_seq. lia.
    + split.
      * intros [[<-|[]]|[[t [-> [X Y]]]|[i [-> [X Y]]]]]; [left; exists s; auto|left; exists t; auto|right; exists i; auto].
      * intros [[t [-> [[X|X] Y]]]|[i [-> [[X|X] Y]]]]; [left; left; congruence|right; left; eauto|contradiction|right; right; eauto].
Qed.
Lemma labs_NoDup e E : ungrouped E -> NoDup (keys E) -> NoDup (labs e E).
Proof.
  induction E as [|i E IH]; intros H Hn; [constructor|]. apply ungrouped_cons in H as [Hi H].
  unfold keys, atoms in Hn. cbn [flat_map] in Hn. rewrite flat_map_app in Hn. fold (atoms E) (keys E) in Hn.
  unfold labs. cbn [flat_map]. fold (labs e E). apply NoDup_app_iff in Hn as [H1 [H2 H3]]. apply NoDup_app_iff. split; [|split; [auto|]].
  - destruct Hi as [->|[s [-> _]]]; cbn; [apply NoDup_dots|repeat constructor; auto].
  - intros a Ha X. apply in_labs in X; auto. destruct Hi as [->|[s [-> Hs]]]; cbn [i_labs item_atoms flat_map atom_key app] in *.
    + apply in_map_iff in Ha as [i [<- _]]. destruct X as [[s [X _]]|[j [_ [X _]]]]; [discriminate|]. apply (H3 ell_name); auto. left; auto.
    + destruct Ha as [<-|[]]. destruct X as [[t [X [Y _]]]|[j [X _]]]; [|discriminate]. injection X as <-. apply (H3 s); auto. left; auto.
Qed.

Lemma entry_names_keys E s : ungrouped E -> In s (entry_names (entries E)) <-> In s (keys E) /\ s <> ell_name.
Proof.
  induction E as [|i E IH]; intros H; [cbn; tauto|]. apply ungrouped_cons in H as [Hi H]. unfold entry_names, entries in *. cbn [map flat_map].
  rewrite in_app_iff, IH by auto. unfold keys, atoms. cbn [flat_map]. rewrite flat_map_app. fold (atoms E) (keys E). rewrite in_app_iff.
  destruct Hi as [->|[t [-> Ht]]]; cbn; [|intuition congruence]. split; [tauto|]. intros [[[X|[]]|X] Y]; [congruence|auto].
Qed.
Lemma entry_names_NoDup E : ungrouped E -> NoDup (keys E) -> NoDup (entry_names (entries E)).
Proof.
  induction E as [|i E IH]; intros H Hn; [constructor|]. apply ungrouped_cons in H as [Hi H].
  unfold keys, atoms in Hn. cbn [flat_map] in Hn. rewrite flat_map_app in Hn. fold (atoms E) (keys E) in Hn. apply NoDup_app_iff in Hn as [H1 [H2 H3]].
  unfold entry_names, entries in *. cbn [map flat_map]. destruct Hi as [->|[t [-> Ht]]]; cbn [i_entry app]; auto. constructor; auto.
  intros X. apply (entry_names_keys E t) in X; auto. apply (H3 t); [left; auto|tauto].
Qed.
Lemma term_dots_count E : ungrouped E -> term_dots (to_term (entries E)) = ndots E /\ length (term_names (to_term (entries E))) + ndots E = length E.
Proof.
  induction E as [|i E IH]; intros H; [split; reflexivity|]. apply ungrouped_cons in H as [Hi H]. destruct (IH H) as [I1 I2].
  unfold ndots, atoms in *. cbn [flat_map]. rewrite filter_app, app_length. fold (atoms E) in *.
  unfold term_dots, term_names, to_term, entries in *. cbn [map flat_map filter length].
  destruct Hi as [->|[t [-> Ht]]]; cbn [i_entry item_atoms filter is_dots length app]; cbn; split; lia.
Qed.
Lemma ndots_has E : has_dots E = negb (ndots E =? 0).
Proof. unfold has_dots, ndots. induction (atoms E) as [|a l IH]; [reflexivity|]. cbn. destruct (is_dots a); cbn; auto. Qed.
Lemma in_none E : In None (to_term (entries E)) -> ungrouped E -> has_dots E = true.
Proof.
  induction E as [|i E IH]; intros X H; [destruct X|]. apply ungrouped_cons in H as [Hi H]. unfold has_dots, atoms in *. cbn [flat_map]. rewrite existsb_app.
  unfold to_term, entries in X. cbn [map] in X. destruct Hi as [->|[t [-> _]]]; [reflexivity|]. destruct X as [X|X]; [discriminate|].
  rewrite (IH X H). apply orb_true_r.
Qed.
Lemma has_none E : ungrouped E -> has_dots E = true -> In None (to_term (entries E)).
Proof.
  induction E as [|i E IH]; intros H X; [discriminate|]. apply ungrouped_cons in H as [Hi H]. unfold has_dots, atoms in X. cbn [flat_map] in X. rewrite existsb_app in X.
  unfold to_term, entries. cbn [map]. destruct Hi as [->|[t [-> _]]]; [left; reflexivity|]. right. apply IH; auto.
Qed.

Lemma psi_phi e E a : ungrouped E -> In a (labs e E) -> psi e (phi e a) = a.
Proof. intros H X. apply in_labs in X; auto. destruct X as [[s [-> _]]|[i [-> [_ X]]]]; cbn; [reflexivity|]. f_equal. lia. Qed.

Lemma ungrouped_lists U s E : unicode_ok U -> ungrouped E -> written U s E -> forall ad, lists U ad s (entries E).
Proof.
  intros HU Hs Hw ad. exists E. split.
  - apply written_more in Hw. destruct Hw as [ts [H1 [H2 [H3 H4]]]]. exists ts. split; auto. split; auto. split; auto. destruct H4 as [H4|H4]; [discriminate|]. right; auto.
  - unfold entries. rewrite map_map. apply map_ext_in. intros i Hi. destruct (Hs i Hi) as [->|[t [-> Ht]]]; [reflexivity|]. cbn.
    destruct (str_eqb t ell_name) eqn:X; [apply str_eqb_eq in X; contradiction|reflexivity].
Qed.

Lemma index_phi e a ms : (forall b, In b (a :: ms) -> psi e (phi e b) = b) ->
  index_of (lab_eqb str_eqb) (phi e a) (map (phi e) ms) = index_of label_eqb a ms.
Proof.
  intros H. induction ms as [|b ms IH]; [reflexivity|]. cbn [map index_of].
  assert (E : lab_eqb str_eqb (phi e a) (phi e b) = label_eqb a b).
  { destruct (label_eqb a b) eqn:X.
    - apply label_eqb_eq in X. subst. apply (lab_eqb_eq str_eqb str_eqb_eq). reflexivity.
    - destruct (lab_eqb str_eqb (phi e a) (phi e b)) eqn:Y; [|reflexivity]. apply (lab_eqb_eq str_eqb str_eqb_eq) in Y.
      assert (a = b) by (rewrite <- (H a), <- (H b); [congruence|right; left; auto|left; auto]). apply label_eqb_eq in H0. congruence. }
  rewrite E, IH; [reflexivity|]. intros c [<-|X]; apply H; [left; auto|right; right; auto].
Qed.
Lemma assign_phi e a ms v (ix : label -> nat) : (forall b, In b (a :: ms) -> psi e (phi e b) = b) ->
  assign (lab_eqb str_eqb) (fun l => ix (psi e l)) (map (phi e) ms) v (phi e a) = assign label_eqb ix ms v a.
Proof. intros H. unfold assign. rewrite index_phi by auto. rewrite (H a (or_introl eq_refl)). reflexivity. Qed.

Lemma Forall2_maps {X Y Z} (P : Y -> Z -> Prop) (f : X -> Y) (g : X -> Z) l : (forall a, In a l -> P (f a) (g a)) -> Forall2 P (map f l) (map g l).
Proof. induction l as [|a l IH]; intros H; constructor; [apply H; left; auto|]. apply IH. intros b Hb. apply H. right; auto. Qed.
Lemma map2_maps {X Y Z W} (h : Y -> Z -> W) (f : X -> Y) (g : X -> Z) l : map2 h (map f l) (map g l) = map (fun a => h (f a) (g a)) l.
Proof. induction l as [|a l IH]; [reflexivity|]. cbn. f_equal. exact IH. Qed.

Section One.
  Context {A : Type} (r : runtime A) (Hok : runtime_ok r).
  Context (add mul : A -> A -> A) (zero one : A) (lib : pystr -> list (tensor A) -> result (tensor A)).
  Hypothesis add_comm : forall a b, add a b = add b a.
  Hypothesis add_assoc : forall a b c, add a (add b c) = add (add a b) c.
  Hypothesis add_zero : forall a, add zero a = a.
  Hypothesis mul_one : forall a, mul a one = a.
  Hypothesis Hsum : forall vs, rt_red r (lit "sum") vs = Ok (fold_right add zero vs).
  Hypothesis Hlib : einsum_contract add mul zero one lib.
  Let U := rt_unicode r.

  Lemma sum_fits : splits (rt_red r (lit "sum")).
  Proof.
    intros n xss H. pose proof (fold_red_splits add zero add_assoc add_zero n xss H) as E. unfold fold_red in E. rewrite Hsum, E.
    rewrite (mapM_ext_in (rt_red r (lit "sum")) (fun l => Ok (fold_right add zero l))) by (intros; apply Hsum).
    destruct (mapM _ xss); cbn [bind]; auto.
  Qed.

  Lemma einsum_one x p L R e : wf x -> reads U p L R -> ungrouped L -> ungrouped R -> incl (keys R) (keys L) -> has_dots R = has_dots L ->
    rank_fits L (length (shp x)) e -> length (keys L) <= 52 ->
    exists y, einsum_with U lib [inl x; inr p] = Ok y /\ reduce r (One x) p (RStr (lit "sum")) [] = Ok y.
  Proof.
    intros Hw Hr UL UR Hinc Hd Hk H52. assert (HU : unicode_ok U) by apply (ro_unicode r Hok).
    destruct Hr as [l [q [Ep [Wl Wq]]]]. assert (Hr : reads U p L R) by (exists l, q; auto).
    assert (NF : forall s E, written U s E -> NoDup (keys E) /\ ndots E <= 1).
    { intros s E [ts [_ [_ [H1 [H2|H2]]]]]; [discriminate|]. split; auto. cbn [andb negb] in H2.
      assert (EF : forall l : list pystr, filter (fun _ => true) l = l) by (induction l0 as [|c l0 IH]; cbn; congruence). rewrite EF in H2. exact H2. }
    destruct (NF _ _ Wl) as [NL DL]. destruct (NF _ _ Wq) as [NR DR].
    destruct (term_dots_count L UL) as [TL CL]. destruct (term_dots_count R UR) as [TR CR].
    set (tL := to_term (entries L)) in *. set (tR := to_term (entries R)) in *.
    assert (EL : left_groups e L = map (fun a => [a]) (labs e L)) by (apply ungrouped_groups; auto).
    assert (ER : right_groups e L R = map (fun a => [a]) (labs e R)) by (apply ungrouped_groups; auto).
    assert (Esp : spare tL x = e).
    { unfold spare. unfold rank_fits in Hk. rewrite ndots_has in Hk. destruct (ndots L) as [|[|k]]; cbn in Hk; lia. }
    assert (De : 0 < e -> In ell_name (keys L)).
    { intros He. apply has_dots_key. unfold rank_fits in Hk. destruct (has_dots L); auto. lia. }
    assert (Hlen : length (shp x) = length (labs e L)).
    { assert (X : length (labs e L) = length (term_names tL) + e * ndots L).
      { unfold tL. clear -UL. induction L as [|i E IH]; [cbn; lia|]. apply ungrouped_cons in UL as [Hi H]. specialize (IH H).
        unfold labs in *. cbn [flat_map]. rewrite app_length, IH. unfold ndots, atoms. cbn [flat_map]. rewrite filter_app, app_length. fold (atoms E). fold (ndots E).
        unfold term_names, to_term, entries. cbn [map flat_map]. rewrite app_length.
        destruct Hi as [->|[t [-> _]]]; cbn [i_labs i_entry item_atoms filter is_dots length]; rewrite ?map_length, ?seq_length; unfold ndots; lia. }
      unfold rank_fits in Hk. rewrite ndots_has in Hk. destruct (ndots L) as [|[|k]]; cbn in Hk; lia. }
    destruct (single_call U Reducing p (shp x) L R e) as [len [Hl Hc]]; auto.
    { split; auto. clear -UR. unfold has_numbers, atoms. induction R as [|i E IH]; [reflexivity|]. apply ungrouped_cons in UR as [Hi H].
      cbn [flat_map]. rewrite existsb_app, IH by auto. destruct Hi as [->|[t [-> _]]]; reflexivity. }
    { intros _ [g [X Y]]. destruct (UL _ X) as [Z|[t [Z _]]]; discriminate. }
    { rewrite EL, map_length. auto. }
    { rewrite EL. apply ones_single. }
    { rewrite EL, concat_ones. apply labs_NoDup; auto. }
    { rewrite EL, ER, !concat_ones. intros a X. apply in_app_iff in X as [X|X]; apply in_labs in X; auto; destruct X as [[s [-> _]]|[i [-> _]]]; exact I. }
    rewrite EL, concat_ones in Hl.
    set (lenE := fun l => len (psi e l)).
    assert (PP : forall a, In a (labs e L) -> psi e (phi e a) = a) by (intros a X; apply (psi_phi e L); auto).
    assert (RL : incl (labs e R) (labs e L)).
    { intros a X. apply in_labs in X; auto. apply in_labs; auto. destruct X as [[s [-> [X Y]]]|[i [-> [X Y]]]]; [left; exists s; auto|right; exists i; auto]. }
    assert (LP : forall l', incl l' (labs e L) -> map lenE (map (phi e) l') = map len l').
    { intros l' X. rewrite map_map. apply map_ext_in. intros a Ha. unfold lenE. rewrite PP; auto. }
    assert (OL : operand_labs tL x = map (phi e) (labs e L)) by (unfold operand_labs; rewrite Esp; apply entries_labs; auto).
    assert (OO : out_labs [tL] [x] tR = map (phi e) (labs e R)).
    { unfold out_labs. cbn [map2 list_max fold_right]. rewrite Esp, Nat.max_0_r. apply entries_labs; auto. }
    assert (ER' : einsum_reads U p [entries L] (entries R)).
    { exists [l], q. split; [rewrite Ep; cbn [str_join]; reflexivity|]. split; [discriminate|]. split; [|apply ungrouped_lists; auto].
      constructor; [apply ungrouped_lists; auto|constructor]. }
    assert (G : good_call lenE [tL] tR [x]).
    { split; [|split; [|split; [|split; [|split]]]].
      - constructor; [|constructor]. split; auto. split; [rewrite TL; auto|]. rewrite OL, <- Hl. apply Forall2_maps. intros a Ha.
        pose proof (PP a Ha) as Pa. unfold dim_fits, lenE. destruct (phi e a) eqn:Ef; cbn [psi] in *; rewrite Pa; auto.
      - unfold tR. rewrite to_term_names. apply entry_names_NoDup; auto.
      - cbn [flat_map]. rewrite app_nil_r. unfold tL, tR. rewrite !to_term_names. intros s X. apply entry_names_keys in X as [X Y]; auto. apply entry_names_keys; auto.
      - rewrite TR. auto.
      - cbn [concat]. rewrite app_nil_r. intros X. apply has_none; auto. rewrite Hd. apply in_none; auto.
      - cbn [map2 list_max fold_right]. rewrite Esp, Nat.max_0_r. intros k Hk'. exists tL, x. split; [left; auto|].
        rewrite OL, <- Hl. assert (X : In (LDots (e - 1 - k)) (labs e L)) by (apply in_labs; auto; right; exists (e - 1 - k); split; [reflexivity|split; [apply De; lia|lia]]).
        apply in_split in X as [l1 [l2 E]]. rewrite E, !map_app. cbn [map].
        assert (Y : phi e (LDots (e - 1 - k)) = LDot k) by (cbn; f_equal; lia). rewrite Y.
        clear. induction l1 as [|b l1 IH]; [left; reflexivity|right; exact IH]. }
    destruct (einsum_formula U HU add mul zero one add_comm add_assoc lib p [entries L] (entries R) [x] lenE) as [y [Ey Fy]]; auto.
    { transitivity (length (keys L)); auto. apply NoDup_incl_length; [apply distinct_NoDup|]. intros s X. apply (proj1 (distinct_In _ _)) in X.
      unfold all_names in X. cbn [flat_map] in X. rewrite app_nil_r in X. apply entry_names_keys in X as [X _]; auto. }
    exists y. split; [exact Ey|].
    set (gl := left_groups e L) in *. set (gr := right_groups e L R) in *. set (ms := missing gl gr) in *.
    assert (Mi : incl ms (labs e L)).
    { intros a X. apply in_missing in X as [X _]. rewrite EL, concat_ones in X. auto. }
    assert (S : summed [tL] tR [x] (map (phi e) ms)).
    { split.
      - assert (N : NoDup ms) by (apply NoDup_filter; rewrite EL, concat_ones; apply labs_NoDup; auto).
        clear -N Mi PP. induction ms as [|a m IH]; [constructor|]. inversion N; subst. cbn [map]. constructor; [|apply IH; auto; intros b Hb; apply Mi; right; auto].
        intros X. apply in_map_iff in X as [b [E X]]. apply H1. rewrite <- (PP a), <- E, PP; auto; apply Mi; [right; auto|left; auto].
      - intros c. unfold all_labs. cbn [map2 concat]. rewrite app_nil_r. cbn [map] in OO. rewrite OL, OO. split.
        + intros X. apply in_map_iff in X as [a [<- X]]. apply in_missing in X as [X Y]. rewrite EL, concat_ones in X. rewrite ER, concat_ones in Y. split; [apply in_map; auto|].
          intros Z. apply in_map_iff in Z as [b [E Z]]. apply Y. rewrite <- (PP a), <- E, PP; auto.
        + intros [X Y]. apply in_map_iff in X as [a [<- X]]. apply in_map. apply in_missing. rewrite EL, ER, !concat_ones. split; auto. intros Z. apply Y. apply in_map; auto. }
    destruct (Fy _ S) as [Wy [Sy Gy]]. cbn [map] in Sy, Gy. fold tL tR in Sy, Gy. rewrite OO in Sy, Gy. rewrite (LP _ RL) in Sy.
    assert (V : forall ix, within len ix (labs e R) -> exists vs,
      elements x len gl ms ix = map Some vs /\ get y (map ix (labs e R)) = Some (fold_right add zero vs)).
    { intros ix Hi. specialize (Gy (fun l => ix (psi e l))).
      assert (W : within lenE (fun l => ix (psi e l)) (map (phi e) (labs e R))).
      { intros c Hc'. apply in_map_iff in Hc' as [a [<- Ha]]. unfold lenE. rewrite PP by auto. apply Hi; auto. }
      specialize (Gy W). rewrite map_map in Gy. rewrite (map_ext_in _ ix) in Gy by (intros a Ha; rewrite PP; auto).
      rewrite (LP ms Mi) in Gy. rewrite Gy. eexists. split; [|reflexivity].
      unfold elements. rewrite map_map. apply map_ext_in. intros v Hv.
      unfold product_at. cbn [map2 fold_right]. rewrite mul_one. unfold element_at. rewrite OL. rewrite <- Hl, map2_maps.
      assert (Wv : within len (assign label_eqb ix ms v) (labs e L)).
      { intros a Ha. destruct (in_dec label_eq_dec a ms) as [Hm|Hm].
        - apply indices_In in Hv. pose proof (inb_length _ _ Hv) as Lv. rewrite map_length in Lv.
          assert (N : NoDup ms) by (apply NoDup_filter; rewrite EL, concat_ones; apply labs_NoDup; auto).
          apply (within_assign label_eqb label_eqb_eq len ix ms v N Hv a Hm).
        - rewrite (assign_out label_eqb label_eqb_eq) by auto. apply Hi. destruct (in_dec label_eq_dec a (labs e R)) as [|Hn]; auto.
          exfalso. apply Hm. apply in_missing. rewrite EL, ER, !concat_ones. auto. }
      assert (Ei : map (fun a => if len a =? 1 then 0 else assign (lab_eqb str_eqb) (fun l => ix (psi e l)) (map (phi e) ms) v (phi e a)) (labs e L)
                   = map (assign label_eqb ix ms v) (labs e L)).
      { apply map_ext_in. intros a Ha. rewrite assign_phi by (intros b [<-|Hb]; apply PP; auto). destruct (Nat.eqb_spec (len a) 1) as [E|E]; auto.
        specialize (Wv a Ha). lia. }
      rewrite Ei. rewrite EL, gindex_single, concat_ones by apply ones_single.
      destruct (get_wf x (map (assign label_eqb ix ms v) (labs e L)) Hw) as [c Ec]; [rewrite <- Hl; apply inb_within; auto|]. rewrite Ec. reflexivity. }
    apply (reduce_iff r Hok x p (lit "sum") [] L R e len y); auto.
    - constructor.
    - intros s [].
    - intros _. apply sum_fits.
    - discriminate.
    - fold gl gr ms. assert (Dm : ms = [] \/ ms <> []) by (destruct ms; [left; auto|right; discriminate]). destruct Dm as [Dm|Dm].
      + left. split; auto. split; auto. rewrite ER, gshape_single, concat_ones by apply ones_single. split; auto.
        intros ix Hi. rewrite gindex_single, concat_ones by apply ones_single.
        destruct (V ix) as [vs [V1 V2]]; [intros a Ha; apply Hi, in_or_app; right; exact Ha|].
        rewrite V2. unfold elements in V1. rewrite Dm in V1. cbn [map indices] in V1. destruct vs as [|v [|? ?]]; try discriminate. injection V1 as V1.
        cbn [fold_right]. rewrite add_comm, add_zero. rewrite <- V1. f_equal.
      + right. split; auto. split; [unfold has_reduction; destruct (rt_framework r); reflexivity|]. split; auto. rewrite ER, gshape_single, concat_ones by apply ones_single. split; auto.
        intros ix Hi. rewrite gindex_single, concat_ones by apply ones_single. destruct (V ix Hi) as [vs [V1 V2]]. exists vs, (fold_right add zero vs).
        rewrite <- ER. fold gr ms. auto.
  Qed.
End One.
