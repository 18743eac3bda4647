(** * parse_shape and the lengths of axes *)
From Verif Require Import Py Tensor ListFacts TensorFacts SpecSem SpecGrammar SpecPattern SpecForms SpecShape SpecOps Parsing Recipe Ops Backends Api ParseFacts StepFacts FrontFacts FrontFacts2 FrontFacts3 MainFacts ReduceFacts MainFacts3 Laws Laws2 ApiFacts ApiFacts2 ApiFacts3 ApiFacts4 ApiFacts6 ApiFacts7 ParseFacts2 ParseFacts3 ParseLaws.

(** ** what is written without [_] may be written where [_] is allowed *)
Lemma word_more U w a : word_atom U false w a -> word_atom U true w a.
Proof.
  intros H. inversion H; subst; constructor; auto. destruct H0 as [H0|[H0 [H1 [H2|[H2 _]]]]]; [left; auto| |discriminate].
  right. repeat split; auto.
Qed.
Lemma structured_more U ts e : structured U false ts e -> structured U true ts e.
Proof.
  induction 1; constructor; auto using word_more. clear -H. induction H; constructor; auto using word_more.
Qed.
Lemma written_more U s e : written U s e -> written_as U true false s e.
Proof.
  intros [ts [H1 [H2 [H3 [H4|H4]]]]]; [discriminate|]. exists ts. split; auto. split; [apply structured_more; auto|]. split; auto.
  right. cbn in H4. apply NoDup_filter. assert (E : forall l : list pystr, filter (fun _ => true) l = l) by (induction l as [|a l IH]; cbn; congruence).
  rewrite E in H4. auto.
Qed.

Lemma legal_no_under U w : unicode_ok U -> legal_name U false w -> w <> [c_under].
Proof.
  intros HU [->|[_ [_ [[H _]|[H _]]]]]; [discriminate| |discriminate]. intros ->. apply H. reflexivity.
Qed.
Lemma structured_no_under U ts e : unicode_ok U -> structured U false ts e -> ~ In (AName [c_under]) (atoms e).
Proof.
  intros HU. unfold atoms. induction 1 as [|w a ts e Hw _ IH|ws l ts e Hf _ IH]; cbn [flat_map item_atoms]; auto; rewrite in_app_iff; intros [X|X]; auto.
  - destruct X as [->|[]]. inversion Hw as [| |? Hx]; subst. apply legal_no_under in Hx; auto.
  - clear IH. induction Hf as [|w a ws l Ha Hf IH]; [destruct X|]. destruct X as [->|X]; auto. inversion Ha as [| |? Hx]; subst. apply legal_no_under in Hx; auto.
Qed.
Lemma written_no_under U s e : unicode_ok U -> written U s e -> ~ In (AName [c_under]) (atoms e).
Proof. intros HU [ts [_ [H _]]]. eapply structured_no_under; eauto. Qed.

(** ** one item *)
Lemma labels_of_ones d e k l : atoms_labels d e k (filter (fun a => negb (is_one a)) l) = atoms_labels d e k l.
Proof.
  revert k; induction l as [|a l IH]; intros k; [reflexivity|]. cbn [filter]. destruct (is_one a) eqn:E; cbn [negb].
  - cbn [atoms_labels]. destruct a as [s|n|]; try discriminate. cbn in E. unfold atom_labels. cbn [stands_for_dots]. rewrite E. cbn [app].
    replace (nbig [ANum n]) with 0; [rewrite Nat.add_0_r; auto|]. unfold nbig. cbn. rewrite E. reflexivity.
  - cbn [atoms_labels]. rewrite IH. reflexivity.
Qed.

Definition spread_item (e : nat) (i : item) : expr := match i with Atom ADots => repeat skip e | _ => [i] end.

Lemma item_groups_one d e k i : i <> Atom ADots -> i <> Atom (AName ell_name) ->
  item_groups d e k i = [atoms_labels d e k (content i)].
Proof.
  intros H1 H2. unfold content. rewrite labels_of_ones. destruct i as [a|l]; cbn [item_groups item_atoms]; auto.
  assert (E : stands_for_dots d a = false).
  { destruct a as [s|n|]; auto; [|contradiction]. cbn. destruct (str_eqb s ell_name) eqn:E; [|apply andb_false_r].
    apply str_eqb_eq in E. congruence. }
  rewrite E. cbn [atoms_labels]. rewrite app_nil_r. reflexivity.
Qed.

Lemma item_groups_dots d e k : item_groups d e k (Atom ADots) = map (fun x => [x]) (map LDots (seq 0 e)).
Proof. reflexivity. Qed.

Lemma in_named i z s n : In (s, n) (named i z) -> content i = [AName s] /\ n = z.
Proof.
  unfold named. destruct (content i) as [|[t|m|] [|? ?]]; try (intros []; fail). destruct (str_eqb t [c_under]); [intros []|].
  intros [E|[]]. inversion E; subst; auto.
Qed.

Lemma named_skips m shape : flat_map (fun '(i, d) => named i d) (combine (repeat skip m) shape) = [].
Proof. revert shape; induction m as [|m IH]; intros [|d shape]; auto. cbn [repeat combine flat_map]. rewrite IH. reflexivity. Qed.

Lemma combine_app {X Y} (a b : list X) (c d : list Y) : length a = length c -> combine (a ++ b) (c ++ d) = combine a c ++ combine b d.
Proof. revert c; induction a as [|x a IH]; intros [|y c] H; try discriminate; auto. cbn in *. rewrite IH; auto. Qed.

Lemma dict_lengths d e len L : forall M k, masks M L -> plain L ->
  forall s n, In (s, n) (flat_map (fun '(i, d) => named i d) (combine (flat_map (spread_item e) M) (map Z.of_nat (gshape len (groups d e k L))))) ->
  In s (keys L) /\ Z.of_nat (len (LName s)) = n.
Proof.
  induction L as [|j L IH]; intros M k Hm Hp s n Hin; inversion Hm as [|i j' M' L' H1 H3]; subst; [destruct Hin|].
  unfold plain, atoms in Hp. cbn [flat_map] in Hp. rewrite in_app_iff in Hp.
  cbn [flat_map groups] in Hin. unfold gshape in Hin. rewrite map_app, map_app in Hin.
  assert (Hi : length (spread_item e i) = length (item_groups d e k j)).
  { destruct H1 as [->|[-> Hj]].
    - assert (D : j = Atom ADots \/ j <> Atom ADots) by (destruct j as [[s'|m|]|l]; auto; right; discriminate).
      destruct D as [-> |D]; [rewrite item_groups_dots, !map_length, seq_length; apply repeat_length|].
      rewrite item_groups_one; auto; [destruct j as [[?|?|]|?]; auto; contradiction|]. intros ->. apply Hp. left. left. auto.
    - rewrite item_groups_one; auto. intros ->. apply Hp. left. left. auto. }
  rewrite combine_app in Hin by (rewrite !map_length; exact Hi). rewrite flat_map_app in Hin. apply in_app_or in Hin as [Hin|Hin].
  - assert (D : i = Atom ADots \/ i <> Atom ADots) by (destruct i as [[s'|m|]|l]; auto; right; discriminate).
    destruct D as [-> |D]; [cbn [spread_item] in Hin; rewrite named_skips in Hin; destruct Hin|].
    destruct H1 as [->|[-> Hj]].
    + rewrite item_groups_one in Hin; [|auto|intros ->; apply Hp; left; left; auto].
      assert (Es : spread_item e j = [j]) by (destruct j as [[?|?|]|?]; auto; contradiction). rewrite Es in Hin.
      cbn [map combine flat_map] in Hin. rewrite app_nil_r in Hin. apply in_named in Hin as [Hc ->].
      assert (Ha : In (AName s) (item_atoms j)) by (assert (X : In (AName s) (content j)) by (rewrite Hc; left; auto); unfold content in X; apply filter_In in X; tauto).
      assert (Hne : s <> ell_name) by (intros ->; apply Hp; left; auto).
      split.
      * unfold keys, atoms. cbn [flat_map]. rewrite flat_map_app. apply in_or_app. left. apply in_flat_map. exists (AName s); split; auto. left; auto.
      * rewrite Hc. cbn [atoms_labels]. unfold atom_labels. cbn [stands_for_dots]. destruct (str_eqb s ell_name) eqn:E; [apply str_eqb_eq in E; congruence|].
        rewrite andb_false_r. cbn [map app prodn fold_right]. lia.
    + unfold skip in Hin. cbn [spread_item] in Hin. destruct (map Z.of_nat _) as [|z zs']; [destruct Hin|]. cbn [combine flat_map] in Hin.
      rewrite app_nil_r in Hin. destruct Hin.
  - apply (IH M' _ H3) in Hin; [|unfold plain, atoms; tauto]. destruct Hin as [Hk Hn]. split; auto.
    unfold keys, atoms. cbn [flat_map]. rewrite flat_map_app. apply in_or_app. right. exact Hk.
Qed.

(** every name is reported *)
Lemma dict_complete l shape s : length l = length shape -> (forall i, In i l -> length (content i) <= 1) -> In (AName s) (atoms l) -> s <> [c_under] ->
  In s (map fst (flat_map (fun '(i, d) => named i d) (combine l shape))).
Proof.
  revert shape; induction l as [|i l IH]; intros [|d shape] Hl Hc Hin Hs; try discriminate; [destruct Hin|].
  unfold atoms in Hin. cbn [flat_map] in Hin. cbn [combine flat_map]. rewrite map_app. apply in_or_app. apply in_app_or in Hin as [Hin|Hin].
  - left. assert (X : In (AName s) (content i)) by (unfold content; apply filter_In; split; auto).
    specialize (Hc i (or_introl eq_refl)). unfold named. destruct (content i) as [|b [|? ?]]; [destruct X| |cbn in Hc; lia].
    destruct X as [->|[]]. destruct (str_eqb s [c_under]) eqn:E; [apply str_eqb_eq in E; congruence|]. left; auto.
  - right. apply IH; auto. intros j Hj. apply Hc. right; auto.
Qed.

Lemma masks_length M L : masks M L -> length M = length L.
Proof. induction 1; cbn; auto. Qed.
Lemma masks_dots M L : masks M L -> In (Atom ADots) M -> In (Atom ADots) L.
Proof. induction 1 as [|i j M L [->|[-> _]] _ IH]; intros X; auto; destruct X as [X|X]; [left; auto|right; auto|discriminate|right; auto]. Qed.
Lemma masks_refl L : masks L L.
Proof. induction L; constructor; auto. Qed.

Lemma opened_spread M L n e : masks M L -> rank_fits L n e -> opened M n = flat_map (spread_item e) M.
Proof.
  intros Hm Hk. unfold opened. assert (X : In (Atom ADots) M -> n + 1 - length M = e).
  { intros H. rewrite (masks_length M L Hm). apply (masks_dots M L Hm) in H. unfold rank_fits in Hk. assert (E : has_dots L = true).
    { unfold has_dots. apply existsb_exists. exists ADots; split; auto. unfold atoms. apply in_flat_map. exists (Atom ADots); split; auto. left; auto. }
    rewrite E in Hk. lia. }
  revert X. generalize (n + 1 - length M) as q. clear. intros q. induction M as [|i M IH]; intros H; auto. cbn [flat_map].
  rewrite IH by (intros; apply H; right; auto). f_equal.
  destruct i as [[?|?|]|?]; auto. cbn [spread_item]. rewrite H by (left; auto). auto.
Qed.

(** ** the lengths that are reported are the lengths of the axes *)
Section Lengths.
  Context (U : unicode) (HU : unicode_ok U).

  Lemma parsed_lengths l M L e len shape d : written_as U true false l M -> masks M L -> plain L -> rank_fits L (length shape) e ->
    gshape len (left_groups e L) = shape -> parse_shape U (map Z.of_nat shape) l = Ok d ->
    forall s n, In (s, n) d -> In s (keys L) /\ Z.of_nat (len (LName s)) = n.
  Proof.
    intros Hl Hm Hp Hk Hs H s n Hin. apply (parse_shape_iff U HU) in H as [M' [Hl' [_ ->]]].
    assert (M' = M) as -> by (eapply written_fun; eauto). unfold shape_dict in Hin.
    rewrite map_length, (opened_spread M L _ e Hm Hk) in Hin. rewrite <- Hs in Hin.
    apply (dict_lengths (has_dots L) e len L M 0 Hm Hp s n) in Hin. exact Hin.
  Qed.

  Lemma parsed_all l L shape d : written U l L -> parse_shape U (map Z.of_nat shape) l = Ok d ->
    forall s, In s (keys L) -> s <> ell_name -> In s (map fst d).
  Proof.
    intros Hl H s Hin Hne. pose proof (written_no_under U l L HU Hl) as Hu. apply written_more in Hl.
    apply (parse_shape_iff U HU) in H as [M' [Hl' [[H1 [_ H2]] ->]]].
    assert (M' = L) as -> by (eapply written_fun; eauto). unfold shape_dict.
    unfold keys in Hin. apply in_flat_map in Hin as [a [Ha Hin]].
    assert (a = AName s) as -> by (destruct a as [t|m|]; cbn in Hin; [destruct Hin as [->|[]]; auto|destruct Hin|destruct Hin as [Hin|[]]; congruence]).
    assert (Hx : s <> [c_under]) by (intros ->; auto).
    apply dict_complete; auto.
    - apply Forall2_length in H2. auto.
    - intros i Hi. unfold opened in Hi. apply in_flat_map in Hi as [j [Hj Hi]].
      assert (D : j = Atom ADots \/ j <> Atom ADots) by (destruct j as [[?|?|]|?]; auto; right; discriminate).
      destruct D as [->|D]; [apply repeat_spec in Hi; subst; cbn; lia|].
      assert (i = j) as -> by (destruct j as [[?|?|]|?]; try contradiction; destruct Hi as [->|[]]; auto). auto.
    - clear -Ha. unfold opened. revert Ha. unfold atoms. generalize (length (map Z.of_nat shape) + 1 - length L) as q. intros q Ha.
      apply in_flat_map in Ha as [i [Hi Ha]]. apply in_flat_map. exists i; split; auto. apply in_flat_map. exists i; split; auto.
      destruct i as [[?|?|]|?]; try (left; reflexivity). cbn in Ha. destruct Ha as [Ha|[]]; discriminate.
  Qed.
End Lengths.

Section Parsed.
  Context {A : Type} (r : runtime A) (Hok : runtime_ok r).
  Notation U := (rt_unicode r).
  Notation f := (rt_framework r).
  Implicit Types (x y z : tensor A).
  Let HU : unicode_ok U := ro_unicode r Hok.

  (** one dimension after the other, no products *)
  Lemma parsed_gives l L R e len x d : written U l L -> plain L -> rank_fits L (length (shp x)) e ->
    gshape len (left_groups e L) = shp x -> parse_shape U (map Z.of_nat (shp x)) l = Ok d -> incl (keys R) (keys L) ->
    gives_all R L len d /\ gives_all L R len d.
  Proof.
    intros Hl Hp Hk Hs H Hi.
    pose proof (parse_shape_keys U HU l _ d H) as Hn.
    pose proof (parsed_lengths U HU l L L e len (shp x) d (written_more U l L Hl) (masks_refl L) Hp Hk Hs H) as Hlen.
    pose proof (parsed_all U HU l L (shp x) d Hl H) as Hall.
    assert (Hin : forall s, In s (map fst d) -> s <> ell_name /\ In s (keys L)).
    { intros s Hsd. apply in_map_iff in Hsd as [[s' n] [<- Hsd]]. cbn [fst]. destruct (Hlen s' n Hsd) as [Hk' _]. split; auto.
      intros ->. apply (parse_shape_iff U HU) in H as [M' [Hl' [_ ->]]].
      assert (M' = L) as -> by (eapply written_fun; eauto using written_more).
      unfold shape_dict in Hsd. apply in_flat_map in Hsd as [[i z] [Hc Hsd]]. apply in_named in Hsd as [Hc' _].
      apply in_combine_l in Hc. unfold opened in Hc. apply in_flat_map in Hc as [j [Hj Hc]].
      assert (D : j = Atom ADots \/ j <> Atom ADots) by (destruct j as [[?|?|]|?]; auto; right; discriminate).
      destruct D as [->|D]; [apply repeat_spec in Hc; subst; discriminate|].
      assert (i = j) as -> by (destruct j as [[?|?|]|?]; try contradiction; destruct Hc as [->|[]]; auto).
      apply Hp. unfold atoms. apply in_flat_map. exists j; split; auto.
      assert (X : In (AName ell_name) (content j)) by (rewrite Hc'; left; auto). unfold content in X. apply filter_In in X. tauto. }
    split; split; auto.
    - intros s Hx. destruct (Hin s Hx). split; auto. apply in_or_app; auto.
    - intros s z Hx. apply (Hlen s z Hx).
    - intros s Hx. destruct (Hin s Hx). split; auto. apply in_or_app; auto.
    - intros s z Hx. apply (Hlen s z Hx).
  Qed.

  Lemma parse_and_flip x y p p' l s d L R : NoDup (map fst s) -> wf x -> rearrange r (One x) p s = Ok y ->
    reads U p L R -> reads U p' R L -> written U l L -> parse_shape U (map Z.of_nat (shp x)) l = Ok d ->
    plain L -> plain R -> ~ grouped_dots R -> no_reserved d ->
    rearrange r (One y) p' d = Ok x.
  Proof.
    intros Hn Hw H R1 R2 Hl Hd HpL HpR Hg Hres.
    destruct (rearrange_moves r Hok x p s y Hn Hw H) as [L0 [R0 [e [len [[Hc _] Hm]]]]].
    destruct (reads_fun U HU p L0 R0 L R (co_reads _ _ _ _ _ _ _ _ _ Hc) R1) as [-> ->].
    pose proof (co_rank _ _ _ _ _ _ _ _ _ Hc) as Hk. pose proof (co_fits _ _ _ _ _ _ _ _ _ Hc) as Hf.
    destruct (co_ident _ _ _ _ _ _ _ _ _ Hc) as [_ [_ [_ Hi]]].
    destruct (parsed_gives l L R e len x d Hl HpL Hk (proj1 Hf) Hd Hi) as [G _].
    apply (rearrange_inverse_total r Hok x y p p' s d L R e len); auto.
  Qed.

  (** the same call, told what was parsed *)
  Lemma parse_and_call x y p l s d L R : NoDup (map fst s) -> wf x -> rearrange r (One x) p s = Ok y ->
    reads U p L R -> written U l L -> parse_shape U (map Z.of_nat (shp x)) l = Ok d ->
    plain L -> plain R -> no_reserved d -> rearrange r (One x) p d = Ok y.
  Proof.
    intros Hn Hw H R1 Hl Hd HpL HpR Hres.
    destruct (rearrange_moves r Hok x p s y Hn Hw H) as [L0 [R0 [e [len [[Hc _] Hmv]]]]].
    destruct (reads_fun U HU p L0 R0 L R (co_reads _ _ _ _ _ _ _ _ _ Hc) R1) as [-> ->].
    pose proof (co_fits _ _ _ _ _ _ _ _ _ Hc) as Hf. pose proof (co_ident _ _ _ _ _ _ _ _ _ Hc) as Hid.
    destruct (parsed_gives l L R e len x d Hl HpL (co_rank _ _ _ _ _ _ _ _ _ Hc) (proj1 Hf) Hd) as [_ G]; [apply Hid|].
    apply (rearrange_iff r Hok x p d L R e len); auto; [apply G|].
    apply full_call_ok; auto; try apply Hc; try apply Hid; apply Hf.
  Qed.

  (** after a reduction, a tensor of the original shape *)
  Lemma parse_and_repeat x y p p' l op s d L R : NoDup (map fst s) -> wf x -> str_mem op reductions = true ->
    (one_by_one f op = true -> splits (rt_red r op)) ->
    reduce r (One x) p (RStr op) s = Ok y ->
    reads U p L R -> reads U p' R L -> written U l L -> parse_shape U (map Z.of_nat (shp x)) l = Ok d ->
    plain L -> plain R -> has_dots L = has_dots R -> ~ grouped_dots R -> no_reserved d ->
    exists z, repeat_ r (One y) p' d = Ok z /\ shp z = shp x /\
      exists e len, rank_fits L (length (shp x)) e /\ fits len (left_groups e L) (right_groups e L R) (shp x) d /\
        moves (left_groups e R) (left_groups e L) len y z.
  Proof.
    intros Hn Hw Hop Hsp H R1 R2 Hl Hd HpL HpR Hdd Hg Hres.
    destruct (reduce_reduces r Hok x p op s y Hn Hw Hop Hsp H) as [L0 [R0 [e [len [[Hc _] O]]]]].
    destruct (reads_fun U HU p L0 R0 L R (co_reads _ _ _ _ _ _ _ _ _ Hc) R1) as [-> ->].
    pose proof (co_fits _ _ _ _ _ _ _ _ _ Hc) as Hf. destruct (co_ident _ _ _ _ _ _ _ _ _ Hc) as [NR KR].
    fold (outcome (rt_red r op) (left_groups e L) (right_groups e L R) len x y) in O.
    destruct (outcome_wf _ _ _ _ _ _ O) as [Hwy Es].
    pose proof (co_rank _ _ _ _ _ _ _ _ _ Hc) as Hk.
    destruct (parsed_gives l L R e len x d Hl HpL Hk (proj1 Hf) Hd KR) as [G _].
    rewrite (right_as_left' e L R) in Es by auto.
    assert (Eg : right_groups e R L = left_groups e L).
    { unfold right_groups, left_groups. rewrite has_numbers_nbig, Hdd by auto. reflexivity. }
    assert (Hgr0 : no_grouped R) by (apply no_grouped_iff; auto; eapply keys_NoDup_L; eauto).
    assert (Hc' : call_ok U Repeating p' d (shp y) R L e len).
    { apply full_call_ok; auto.
      - split; auto. split; auto. intros t Ht. apply in_or_app.
        assert (D : t = ell_name \/ t <> ell_name) by (destruct (list_eq_dec N.eq_dec t ell_name); auto).
        destruct D as [->|D]; [left; apply has_dots_key; rewrite <- Hdd; apply plain_key; auto|].
        right. apply (parsed_all U HU l L (shp x) d Hl Hd); auto.
      - rewrite Hdd; auto.
      - rewrite Es. eapply next_rank; eauto. rewrite <- Hdd. apply (rank_zero _ _ _ Hk).
      - intros k n Hin. apply (proj1 (proj2 Hf) k n). rewrite Eg in Hin. apply in_app_or in Hin as [Hin|Hin]; apply in_or_app; auto.
        right. rewrite (right_as_left' e L R) by auto. auto. }
    assert (Hrs : repeat_sizes_ok r p' d).
    { intros _ L0 R0 t _ Ht. exfalso. pose proof (ga_lengths _ _ _ _ G t _ Ht). lia. }
    destruct (proj2 (repeat_accepts r Hok y p' d (ga_distinct _ _ _ _ G) Hwy Hrs)) as [z Hz]; [split; eauto|].
    exists z. split; auto.
    apply (repeat_iff r Hok y p' d R L e len) in Hz; auto; [|apply G]. rewrite Eg in Hz.
    split; [destruct Hz as [_ [-> _]]; apply Hf|]. exists e, len. split; auto. split; auto.
    destruct Hf as [F1 [F2 F3]]. split; auto. split; auto. apply G.
  Qed.
End Parsed.
