(** * Unpacking in stages: proofs *)
From Verif Require Import Py Tensor Parsing Recipe Ops Backends SpecGrammar SpecPattern Api Packing SpecPacking SpecPackStages ListFacts PackFacts PackFacts2 PackFacts3 PackFacts4 PackFacts5 PackStages.

Section Unpack.
  Context {A : Type} (r : runtime A) (Hr : runtime_ok r) (p : pystr) (before after : list pystr) (b a : list nat).
  Context (Hp : pack_pattern (rt_unicode r) p before after) (Lb : length b = length before) (La : length a = length after) (P : prodn (b ++ a) <> 0).
  Implicit Types (x y t : tensor A) (ts : list (tensor A)) (ms : list (list nat)) (ps : list (list Z)).
  Notation total ms := (list_sum (map prodn ms)).
  Notation fill := (fun q m => fills q (prodn m) m).
  Notation opens ps := (length (filter is_open ps)).

  Lemma opens_none ps : existsb is_open ps = false -> forall q, In q ps -> is_open q = false.
  Proof. intros H q Hq. destruct (is_open q) eqn:E; [|reflexivity]. rewrite (proj2 (existsb_exists _ _)) in H; [discriminate|]. eauto. Qed.
  Lemma opens_zero ps : existsb is_open ps = false <-> opens ps = 0.
  Proof. induction ps as [|q ps IH]; cbn; [tauto|]. destruct (is_open q); cbn; [split; discriminate|exact IH]. Qed.

  Lemma sound n x ps ts : shp x = b ++ [n] ++ a -> wf x -> ps <> [] -> (forall q, In q ps -> tame (rt_lib r) q) -> no_overlap n ps -> unpack r x ps p = Ok ts ->
    exists ms, Forall2 fill ps ms /\ consists_of b a x ms ts.
  Proof.
    intros Hs Hw Hn HT Ho H. destruct (slack_exists ps Hn (unpack_count r Hr _ _ _ _ H)) as (ps1 & pu & ps2 & -> & HS).
    destruct (existsb is_open (ps1 ++ pu :: ps2)) eqn:Eo; [eapply (unpack_sound r Hr); eauto|].
    destruct (proj1 (unpack_exact r Hr x ps1 pu ps2 p before after b n a ts Hp Hs Lb La Hw P HT HS) H) as (ms & SO).
    exists ms. split; [apply SO|]. eapply split_off_consists; eauto.
    destruct HS as [NO SL]. destruct SL as [SL| ->]; [rewrite (opens_none _ Eo pu) in SL; [discriminate|apply in_or_app; right; left; reflexivity]|].
    destruct SO as (HF & Ou & Su & Mu & Lt & _). destruct (Forall2_app_cons_inv _ _ _ _ _ HF) as (ms1 & mu & ms2 & -> & F1 & Fu & F2).
    inversion F2; subst. pose proof (Forall2_length _ _ _ F1) as L1. rewrite L1 in *.
    specialize (Mu mu). rewrite nth_error_app2, Nat.sub_diag in Mu by lia. specialize (Mu eq_refl). rewrite offset_app in *. rewrite suffix_app in *.
    rewrite map_app, list_sum_app. cbn in *. lia.
  Qed.
  Lemma complete n x ps ms ts : shp x = b ++ [n] ++ a -> ps <> [] -> opens ps <= 1 -> Forall2 fill ps ms -> consists_of b a x ms ts -> unpack r x ps p = Ok ts.
  Proof. intros. eapply (unpack_complete r Hr); eauto. Qed.

  Lemma known_concat pss : known_total (concat pss) = list_sum (map known_total pss).
  Proof. induction pss as [|ps pss IH]; [reflexivity|]. cbn [concat]. rewrite known_total_app, IH. reflexivity. Qed.
  Lemma is_open_group ps : is_open [group_length ps] = existsb is_open ps.
  Proof.
    unfold group_length. destruct (existsb is_open ps); [reflexivity|]. cbn. destruct (known_total ps); reflexivity.
  Qed.
  Definition asked (pss : list (list (list Z))) : list (list Z) := map (fun ps => [group_length ps]) pss.
  Lemma opens_asked pss : opens (asked pss) <= opens (concat pss).
  Proof.
    induction pss as [|ps pss IH]; [cbn; lia|]. cbn [asked map concat filter]. fold (asked pss). rewrite filter_app, app_length, is_open_group.
    destruct (existsb is_open ps) eqn:E; [|cbn in *; lia]. destruct (opens ps) eqn:E'; [apply opens_zero in E'; congruence|]. cbn in *. lia.
  Qed.
  Lemma opens_group ps pss : In ps pss -> opens ps <= opens (concat pss).
  Proof. induction pss as [|q pss IH]; [intros []|]. intros [->|H]; cbn; rewrite filter_app, app_length; [lia|]. specialize (IH H). lia. Qed.
  Lemma fill_group ps ms : Forall2 fill ps ms -> fills [group_length ps] (total ms) [total ms].
  Proof.
    intros H. split; [cbn; lia|]. unfold group_length. destruct (existsb is_open ps) eqn:E.
    - right. exists [], [], (total ms). split; [reflexivity|]. split; [intros d []|]. split; [intros d []|]. split; [discriminate|reflexivity].
    - left. rewrite (known_part ps ms (opens_none _ E) H). split; [intros d [<-|[]]; lia|]. cbn. rewrite Nat2Z.id. reflexivity.
  Qed.
  Lemma fill_groups pss mss : Forall2 (Forall2 fill) pss mss -> Forall2 fill (asked pss) (sums mss).
  Proof.
    induction 1 as [|ps ms pss mss H HF IH]; constructor; [|exact IH]. replace (prodn [total ms]) with (total ms) by (cbn; lia). apply fill_group, H.
  Qed.

  Lemma each_unpacked pss mss ys tss : Forall (fun ps => ps <> []) pss -> (forall ps, In ps pss -> opens ps <= 1) -> Forall2 (Forall2 fill) pss mss -> stages b a ys mss tss ->
    mapM (fun '(y, ps) => unpack r y ps p) (combine ys pss) = Ok tss.
  Proof.
    intros Hn Ho HF. revert ys tss. induction HF as [|ps ms pss mss H HF IH]; intros ys tss Hs; inversion Hs as [|y ys' ms0 mss0 ts tss' H1 H2]; subst; [reflexivity|].
    inversion Hn; subst. cbn [combine mapM]. rewrite (complete (total ms) y ps ms ts); [|apply H1|assumption|apply Ho; left; reflexivity|exact H|exact H1].
    cbn [bind]. rewrite (IH ltac:(assumption) (fun ps' Hi => Ho ps' (or_intror Hi)) ys' tss' H2). reflexivity.
  Qed.
  Lemma forward_stages n x pss ts : shp x = b ++ [n] ++ a -> wf x -> pss <> [] -> Forall (fun ps => ps <> []) pss -> (forall q, In q (concat pss) -> tame (rt_lib r) q) ->
    opens (concat pss) <= 1 -> no_overlap n (concat pss) -> unpack r x (concat pss) p = Ok ts ->
    exists ys tss, unpack r x (asked pss) p = Ok ys /\ mapM (fun '(y, ps) => unpack r y ps p) (combine ys pss) = Ok tss /\ ts = concat tss.
  Proof.
    intros Hs Hw Hne Hn HT H1 Ho H.
    assert (Hc : concat pss <> []) by (destruct pss as [|ps pss]; [contradiction|]; inversion Hn; subst; cbn; intros X; apply app_eq_nil in X as [X _]; contradiction).
    destruct (sound n x _ ts Hs Hw Hc HT Ho H) as (ms & HF & HC). apply Forall2_split in HF as (mss & -> & HF).
    pose proof HC as (_ & _ & L & _). destruct (split_as mss ts L) as (tss & -> & HL). apply (consists_stages b a x mss tss HL) in HC as (ys & H2 & H3).
    exists ys, tss. split; [|split; [|reflexivity]].
    - eapply complete; [exact Hs| | |apply fill_groups, HF|exact H2]; [destruct pss; [contradiction|discriminate]|]. pose proof (opens_asked pss). lia.
    - eapply each_unpacked; [exact Hn| |exact HF|exact H3]. intros ps Hi. pose proof (opens_group ps pss Hi). lia.
  Qed.

  (** the other direction *)
  Lemma enough pss ns : Forall2 (fun ps N => existsb is_open ps = false -> N = known_total ps) pss ns -> list_sum (map known_total pss) <= list_sum ns -> opens (concat pss) <= 1 ->
    Forall2 (fun ps N => known_total ps <= N) pss ns.
  Proof.
    induction 1 as [|ps N pss ns H HF IH]; intros Hsum Hc; [constructor|]. cbn [map list_sum fold_right] in Hsum. fold (list_sum (map known_total pss)) in Hsum. fold (list_sum ns) in Hsum.
    cbn [concat] in Hc. rewrite filter_app, app_length in Hc.
    destruct (existsb is_open ps) eqn:E.
    - assert (E0 : opens (concat pss) = 0) by (destruct (opens ps) eqn:E'; [apply opens_zero in E'; congruence|lia]). apply opens_zero in E0.
      assert (HE : Forall2 (fun ps N => N = known_total ps) pss ns).
      { clear - HF E0. induction HF as [|ps N pss ns H HF IH]; constructor; cbn in E0; rewrite existsb_app in E0; apply orb_false_iff in E0 as [E1 E2]; auto. }
      assert (HS : list_sum (map known_total pss) = list_sum ns).
      { clear - HE. induction HE as [|ps N pss ns -> HE IH]; [reflexivity|]. cbn [map list_sum fold_right]. f_equal. exact IH. }
      constructor; [lia|]. clear - HE. induction HE as [|ps N pss ns -> HE IH]; constructor; [lia|exact IH].
    - rewrite (H eq_refl) in *. constructor; [lia|]. apply IH; lia.
  Qed.
  Lemma asked_one ps m : fills [group_length ps] (prodn m) m -> exists N, m = [N] /\ (existsb is_open ps = false -> N = known_total ps).
  Proof.
    unfold group_length. intros [_ [[Hc ->]|(p1 & p2 & k & E & _ & _ & _ & ->)]].
    - destruct (existsb is_open ps); [specialize (Hc (-1)%Z (or_introl eq_refl)); lia|]. eexists. split; [reflexivity|]. intros _. apply Nat2Z.id.
    - destruct p1 as [|d p1]; [|destruct p1; discriminate]. injection E as E <-. exists k. split; [reflexivity|]. intros E'. rewrite E' in E. lia.
  Qed.
  Lemma asked_all pss ms : Forall2 fill (asked pss) ms -> exists ns, ms = map (fun N => [N]) ns /\ Forall2 (fun ps N => existsb is_open ps = false -> N = known_total ps) pss ns.
  Proof.
    revert ms. induction pss as [|ps pss IH]; intros ms H; inversion H as [|q m qs ms' H1 H2]; subst; [exists []; split; [reflexivity|constructor]|].
    destruct (asked_one ps m H1) as (N & -> & HN). destruct (IH ms' H2) as (ns & -> & Hns). exists (N :: ns). split; [reflexivity|constructor; assumption].
  Qed.
  Lemma total_ones ns : total (map (fun N => [N]) ns) = list_sum ns.
  Proof. induction ns as [|N ns IH]; [reflexivity|]. change (N * 1 + total (map (fun N => [N]) ns) = N + list_sum ns). lia. Qed.

  (** the shapes of the pieces *)
  Definition framed ys ns : Prop := Forall2 (fun y N => shp y = b ++ [N] ++ a /\ wf y) ys ns.
  Lemma first_stage n x pss ys : shp x = b ++ [n] ++ a -> wf x -> pss <> [] -> opens (concat pss) <= 1 -> no_overlap n (concat pss) -> unpack r x (asked pss) p = Ok ys ->
    exists ns, consists_of b a x (map (fun N => [N]) ns) ys /\ Forall2 (fun ps N => no_overlap N ps) pss ns /\ framed ys ns.
  Proof.
    intros Hs Hw Hne H1 Ho H.
    assert (Hn : asked pss <> []) by (destruct pss; [contradiction|discriminate]).
    assert (HT : forall q, In q (asked pss) -> tame (rt_lib r) q).
    { intros q Hq. apply in_map_iff in Hq as (ps & <- & _). right. intros d [<-|[]]. unfold group_length. destruct (existsb is_open ps); lia. }
    assert (Ho' : no_overlap n (asked pss)).
    { intros E. assert (E' : existsb is_open (concat pss) = true).
      { destruct (existsb is_open (concat pss)) eqn:X; [reflexivity|]. apply opens_zero in X. pose proof (opens_asked pss) as Y. rewrite X in Y.
        assert (Z : opens (asked pss) = 0) by lia. apply opens_zero in Z. congruence. }
      specialize (Ho E'). rewrite known_concat in Ho. etransitivity; [|exact Ho]. clear. induction pss as [|ps pss IH]; [reflexivity|].
      change (asked (ps :: pss)) with ([[group_length ps]] ++ asked pss). rewrite known_total_app.
      change (list_sum (map known_total (ps :: pss))) with (known_total ps + list_sum (map known_total pss)). apply Nat.add_le_mono; [|exact IH].
      unfold known_total at 1. cbn [filter]. rewrite is_open_group. destruct (existsb is_open ps) eqn:E; cbn [negb]; [apply Nat.le_0_l|].
      unfold group_length. rewrite E. cbn [map list_sum fold_right prodn]. rewrite Nat2Z.id. lia. }
    destruct (sound n x _ ys Hs Hw Hn HT Ho' H) as (ms & HF & HC). destruct (asked_all pss ms HF) as (ns & -> & Hns). exists ns. split; [exact HC|].
    assert (Hsum : list_sum ns = n).
    { destruct HC as (_ & S & _). rewrite Hs in S. apply app_inv_head in S. injection S as ->. symmetry. apply total_ones. }
    split.
    - destruct (existsb is_open (concat pss)) eqn:Eo.
      + specialize (Ho Eo). rewrite known_concat, <- Hsum in Ho. pose proof (enough pss ns Hns Ho H1) as K. clear - K. induction K; constructor; [intros _; assumption|assumption].
      + clear - Eo Hns. induction Hns as [|ps N pss ns H HF IH]; constructor; cbn in Eo; rewrite existsb_app in Eo; apply orb_false_iff in Eo as [E1 E2]; [intros X; congruence|apply IH, E2].
    - apply Forall2_shp_consists in HC as [S W]. clear - S W. revert ns S. induction W as [|y ys Wy W IH]; intros [|N ns] S; inversion S; subst; constructor; [auto|apply IH; assumption].
  Qed.
  Lemma second_stage pss ns : forall ys tss, Forall (fun ps => ps <> []) pss -> (forall q, In q (concat pss) -> tame (rt_lib r) q) -> Forall2 (fun ps N => no_overlap N ps) pss ns -> framed ys ns ->
    mapM (fun '(y, ps) => unpack r y ps p) (combine ys pss) = Ok tss -> exists mss, Forall2 (Forall2 fill) pss mss /\ stages b a ys mss tss /\ sums mss = map (fun N => [N]) ns.
  Proof.
    intros ys tss Hn HT HO. revert ys tss Hn HT. induction HO as [|ps N pss ns H HF IH]; intros ys tss Hn HT Hf E; inversion Hf as [|y N' ys' ns' [Sy Wy] Hf']; subst.
    - injection E as <-. exists []. split; [constructor|]. split; [constructor|reflexivity].
    - cbn [combine mapM] in E. apply bind_Ok in E as (ts & E1 & E). apply bind_Ok in E as (tss' & E2 & E). injection E as <-. inversion Hn; subst.
      destruct (sound N y ps ts Sy Wy ltac:(assumption)) with (3 := E1) as (ms & F1 & C1); [intros q Hq; apply HT; cbn; apply in_or_app; left; exact Hq|exact H|].
      destruct (IH ys' tss' ltac:(assumption)) as (mss & F2 & S2 & E3); [intros q Hq; apply HT; cbn; apply in_or_app; right; exact Hq|exact Hf'|exact E2|].
      exists (ms :: mss). split; [constructor; assumption|]. split; [constructor; assumption|]. cbn [sums map]. fold (sums mss). rewrite E3. do 2 f_equal.
      destruct C1 as (_ & S & _). rewrite Sy in S. apply app_inv_head in S. injection S as ->. reflexivity.
  Qed.

  Lemma in_stages n x pss : shp x = b ++ [n] ++ a -> wf x -> pss <> [] -> Forall (fun ps => ps <> []) pss -> (forall q, In q (concat pss) -> tame (rt_lib r) q) ->
    opens (concat pss) <= 1 -> no_overlap n (concat pss) ->
    unpack r x (concat pss) p = let* ys := unpack r x (asked pss) p in let* tss := mapM (fun '(y, ps) => unpack r y ps p) (combine ys pss) in Ok (concat tss).
  Proof.
    intros Hs Hw Hne Hn HT H1 Ho.
    assert (rank : forall y N, shp y = b ++ [N] ++ a -> length (shp y) = length before + 1 + length after) by (intros y N E; rewrite E, !app_length; cbn; lia).
    destruct (unpack r x (concat pss) p) as [ts|e] eqn:E.
    - destruct (forward_stages n x pss ts Hs Hw Hne Hn HT H1 Ho E) as (ys & tss & -> & E2 & ->). cbn [bind]. rewrite E2. reflexivity.
    - pose proof (unpack_errors r Hr x _ p before after e Hp (rank x n Hs) E) as Ee. rewrite (proj2 (Nat.ltb_ge _ _) H1) in Ee. subst e.
      destruct (unpack r x (asked pss) p) as [ys|e] eqn:E1; cbn [bind].
      + destruct (first_stage n x pss ys Hs Hw Hne H1 Ho E1) as (ns & HC & HO & Hf).
        destruct (mapM (fun '(y, ps) => unpack r y ps p) (combine ys pss)) as [tss|e] eqn:E2; cbn [bind].
        * exfalso. destruct (second_stage pss ns ys tss Hn HT HO Hf E2) as (mss & HF & S & Es). rewrite <- Es in HC.
          assert (X : consists_of b a x (concat mss) (concat tss)) by (apply consists_stages; [apply (stages_len _ _ _ _ _ S)|exists ys; split; assumption]).
          rewrite (complete n x (concat pss) (concat mss) (concat tss) Hs) in E; [discriminate| |exact H1| |exact X].
          -- destruct pss as [|ps pss]; [contradiction|]. inversion Hn; subst. cbn. intros Y. apply app_eq_nil in Y as [Y _]. contradiction.
          -- clear - HF. induction HF as [|ps ms pss mss H HF IH]; [constructor|]. cbn. apply Forall2_app; assumption.
        * apply mapM_Err_in in E2 as ([y ps] & Hin & E2). f_equal. symmetry.
          assert (Hy : exists N, shp y = b ++ [N] ++ a).
          { apply in_combine_l in Hin. clear - Hf Hin. induction Hf as [|z N ys ns [S _] Hf IH]; [destruct Hin|]. destruct Hin as [<-|Hin]; eauto. }
          destruct Hy as (N & Sy). pose proof (unpack_errors r Hr y ps p before after e Hp (rank y N Sy) E2) as Ee.
          apply in_combine_r in Hin. pose proof (opens_group ps pss Hin). rewrite (proj2 (Nat.ltb_ge _ _)) in Ee by lia. exact Ee.
      + pose proof (unpack_errors r Hr x _ p before after e Hp (rank x n Hs) E1) as Ee. pose proof (opens_asked pss). rewrite (proj2 (Nat.ltb_ge _ _)) in Ee by lia. congruence.
  Qed.
End Unpack.
