(** * Descriptions of layers *)
From Coq Require Import DecimalFacts DecimalZ DecimalPos DecimalN.
From Verif Require Import Py Tensor ListFacts SpecGrammar SpecPattern Parsing Compile Recipe Ops Api ParseFacts ParseFacts2 ParseFacts3 FrontFacts FrontFacts2 FrontFacts3
  Layers SpecLayers LayerFacts EinMix SpecEinMix MixFacts2 MixFacts9 Texts SpecTexts.

(** ** numerals *)
Definition dstep (acc : Z) (c : N) : Z := (acc * 10 + (Z.of_N c - 48))%Z.
Lemma acc_value d : forall p, Z.pos (Pos.of_uint_acc d p) = fold_left dstep (uint_codes d) (Z.pos p).
Proof.
  induction d; intros p; cbn [Pos.of_uint_acc uint_codes fold_left]; [reflexivity|..]; rewrite IHd; f_equal; unfold dstep; lia.
Qed.
Lemma uint_value d : Z.of_uint d = digits_value (uint_codes d).
Proof.
  unfold Z.of_uint, digits_value. induction d; cbn [Pos.of_uint uint_codes fold_left]; [reflexivity|..].
  1: exact IHd.
  all: cbn [Z.of_N]; rewrite acc_value; reflexivity.
Qed.
Lemma codes_digit d c : In c (uint_codes d) -> ascii_digit c = true.
Proof. induction d; cbn; [tauto|..]; intros [<-|H]; auto. Qed.
Lemma unorm_digits d : Decimal.unorm d = d -> digits (uint_codes d).
Proof.
  intros H. unfold digits. split; [|split].
  - destruct d; cbn; try discriminate.
  - intros c. apply codes_digit.
  - destruct d; cbn; try discriminate. intros _. change (Decimal.unorm (Decimal.D0 d)) with (Decimal.unorm d) in H.
    destruct d as [|d|d|d|d|d|d|d|d|d|d]; try discriminate; [reflexivity|].
    exfalso. assert (G : Decimal.nb_digits (Decimal.unorm (Decimal.D0 d)) <= Decimal.nb_digits (Decimal.D0 d)).
    { clear H. change (Decimal.unorm (Decimal.D0 d)) with (Decimal.unorm d). unfold Decimal.unorm. destruct (Decimal.nzhead d) eqn:E; cbn [Decimal.nb_digits]; [lia|..];
      rewrite <- ?E; pose proof (DecimalFacts.nb_digits_nzhead d) as X; rewrite ?E in X; cbn [Decimal.nb_digits] in X; lia. }
    rewrite H in G. cbn [Decimal.nb_digits] in G. lia.
Qed.
Lemma int_numeral z : numeral (str_of_int z) z.
Proof.
  unfold str_of_int. pose proof (DecimalZ.of_to z) as E1. pose proof (DecimalZ.to_of (Z.to_int z)) as E2. rewrite E1 in E2.
  destruct (Z.to_int z) as [u|u] eqn:E0; cbn [Z.of_int Decimal.norm] in *.
  - rewrite <- E1, uint_value. constructor. apply unorm_digits. congruence.
  - rewrite <- E1. rewrite uint_value in *.
    assert (Hn : Decimal.nzhead u = u /\ u <> Decimal.Nil). { destruct (Decimal.nzhead u) eqn:E; try discriminate; split; try congruence; intros ->; discriminate. }
    destruct Hn as [Hn Hu].
    assert (Hd : Decimal.unorm u = u) by (unfold Decimal.unorm; rewrite Hn; destruct u; congruence).
    constructor; [apply unorm_digits; exact Hd|]. intros X. rewrite X in E1. change (-0)%Z with 0%Z in E1. subst z. discriminate E0.
Qed.
Lemma numeral_unique n z z' : numeral n z -> numeral n z' -> z = z'.
Proof.
  assert (G : forall l, ~ digits (lit "-" ++ l)). { intros l (_ & H & _). specialize (H 45%N (or_introl eq_refl)). discriminate. }
  intros [l H|l H _] H'; inversion H' as [l' X|l' X ? Y]; subst; auto; try (exfalso; eapply G; eauto; fail).
Qed.
Lemma numeral_char n z c : numeral n z -> In c n -> c = 45%N \/ ascii_digit c = true.
Proof. intros [l (_ & H & _)|l (_ & H & _) _] Hc; [auto|]. destruct Hc as [<-|Hc]; auto. Qed.

(** ** reading a text *)
Lemma span_unique (P : N -> Prop) : forall a b t u x y, (forall c, In c a -> P c) -> (forall c, In c b -> P c) -> ~ P t -> ~ P u ->
  a ++ t :: x = b ++ u :: y -> a = b /\ t = u /\ x = y.
Proof.
  induction a as [|c a IH]; intros [|d b] t u x y Ha Hb Ht Hu E; cbn in E; injection E as E1 E2.
  - auto.
  - subst. exfalso. apply Ht, Hb. left. reflexivity.
  - subst. exfalso. apply Hu, Ha. left. reflexivity.
  - subst. destruct (IH b t u x y) as (-> & -> & ->); auto; intros; [apply Ha|apply Hb]; right; auto.
Qed.
Lemma id_char U s c : unicode_ok U -> isidentifier U s = true -> In c s -> (c < 128)%N -> ascii_letter c = true \/ ascii_digit c = true \/ c = c_under.
Proof.
  intros HU H Hc Hl. destruct s as [|d s]; [destruct Hc|]. cbn in H. apply andb_true_iff in H as [H1 H2]. destruct Hc as [->|Hc].
  - rewrite (uo_idstart U HU) in H1 by exact Hl. apply orb_true_iff in H1 as [H1|H1]; [auto|]. apply N.eqb_eq in H1. auto.
  - rewrite forallb_forall in H2. specialize (H2 c Hc). rewrite (uo_idcont U HU) in H2 by exact Hl.
    apply orb_true_iff in H2 as [H2|H2]; [|apply N.eqb_eq in H2; auto]. apply orb_true_iff in H2 as [H2|H2]; auto.
Qed.
Lemma id_not U s c : unicode_ok U -> isidentifier U s = true -> (c < 128)%N -> ascii_letter c = false -> ascii_digit c = false -> c <> c_under -> ~ In c s.
Proof. intros HU H Hl H1 H2 H3 Hc. destruct (id_char U s c HU H Hc Hl) as [X|[X|X]]; congruence. Qed.

Definition tail_of (items : list pystr) : pystr := flat_map (fun y => lit ", " ++ y) items.
Lemma join_tail x l : str_join (lit ", ") (x :: l) = x ++ tail_of l.
Proof.
  revert x. induction l as [|y l IH]; intros x; [symmetry; apply app_nil_r|].
  change (str_join (lit ", ") (x :: y :: l)) with (x ++ lit ", " ++ str_join (lit ", ") (y :: l)). rewrite IH. cbn. reflexivity.
Qed.
Section Denotes.
  Context (U : unicode) (HU : unicode_ok U).
  Lemma keyword_start t kw : keyword U t kw -> exists c t', t = c :: t' /\ c <> 39%N /\ c <> 41%N.
  Proof.
    intros [Hi [n [-> _]]]. destruct (fst kw) as [|c k] eqn:E; [discriminate|]. exists c, (k ++ lit "=" ++ n). split; [reflexivity|].
    split; intros ->; eapply (id_not U (39%N :: k) 39%N); eauto; try discriminate; try (left; reflexivity); try reflexivity.
    all: exfalso; cbn in Hi; apply andb_true_iff in Hi as [Hi _]; rewrite (uo_idstart U HU) in Hi by reflexivity; discriminate.
  Qed.
  Lemma ends items : exists t x, tail_of items ++ lit ")" = t :: x /\ (t = 44%N \/ t = 41%N).
  Proof. destruct items; cbn; eauto. Qed.
  Definition no_quote (c : N) : Prop := c <> 39%N.
  Definition no_equals (c : N) : Prop := c <> 61%N.
  Definition num_char (c : N) : Prop := c = 45%N \/ ascii_digit c = true.
  Lemma items_unique vargs vkws : forall args kws vargs' vkws' args' kws',
    Forall2 literal args vargs -> Forall2 (keyword U) kws vkws -> Forall2 literal args' vargs' -> Forall2 (keyword U) kws' vkws' ->
    tail_of (args ++ kws) ++ lit ")" = tail_of (args' ++ kws') ++ lit ")" -> vargs = vargs' /\ vkws = vkws'.
  Proof.
    revert vkws. induction vargs as [|s vargs IH]; intros vkws args kws vargs' vkws' args' kws' H1 H2 H1' H2' E.
    - inversion H1; subst; clear H1. inversion H1' as [|t' s' ? ? [-> _] ?]; subst; clear H1'.
      + split; [reflexivity|]. cbn [app] in E.
        revert kws vkws' kws' H2 H2' E. induction vkws as [|[k z] vkws IH]; intros kws vkws' kws' H2 H2' E.
        * inversion H2; subst. inversion H2' as [|t' kw' ? ? ? ?]; subst; [reflexivity|]. discriminate E.
        * inversion H2 as [|t kw ts kws0 [Hk [n [-> Hn]]] Ht]; subst. inversion H2' as [|t' kw' ts' kws0' [Hk' [n' [-> Hn']]] Ht']; subst; [discriminate E|].
          destruct kw' as [k' z']. cbn [fst snd] in *.
          cbn [tail_of flat_map] in E. fold (tail_of ts) in E. fold (tail_of ts') in E. rewrite <- !app_assoc in E. cbn [app lit] in E.
          assert (E' : k ++ lit "=" ++ n ++ tail_of ts ++ lit ")" = k' ++ lit "=" ++ n' ++ tail_of ts' ++ lit ")") by (injection E as E; exact E). clear E.
          destruct (span_unique no_equals k k' 61%N 61%N (n ++ tail_of ts ++ lit ")") (n' ++ tail_of ts' ++ lit ")")) as (<- & _ & E); [| |intros X; apply X; reflexivity|intros X; apply X; reflexivity|exact E'|].
          { intros c Hc X. subst c. revert Hc. eapply id_not; eauto; try reflexivity; discriminate. }
          { intros c Hc X. subst c. revert Hc. eapply id_not; eauto; try reflexivity; discriminate. }
          destruct (ends ts) as (t & x & Et & Htc). destruct (ends ts') as (t' & x' & Et' & Htc'). rewrite Et, Et' in E.
          destruct (span_unique num_char n n' t t' x x') as (<- & <- & <-); [| | | |exact E|].
          { intros c Hc. exact (numeral_char n z c Hn Hc). }
          { intros c Hc. exact (numeral_char n' z' c Hn' Hc). }
          { intros X. destruct Htc; subst; destruct X; discriminate. }
          { intros X. destruct Htc'; subst; destruct X; discriminate. }
          rewrite (numeral_unique _ _ _ Hn Hn'). f_equal. eapply IH; eauto. congruence.
      + exfalso. inversion H2 as [|t kw ts kws0 Hk Ht]; subst; [discriminate E|]. destruct (keyword_start _ _ Hk) as (c & t' & -> & Hq & _). cbn in E. injection E as E _. congruence.
    - inversion H1 as [|t s0 ts ? [-> Hs] Ht]; subst; clear H1. inversion H1' as [|t' s' ts' ? [-> Hs'] Ht']; subst; clear H1'.
      + exfalso. inversion H2' as [|t kw ts' kws0 Hk _]; subst; [discriminate E|]. destruct (keyword_start _ _ Hk) as (c & t' & -> & Hq & _). cbn in E. injection E as E _. congruence.
      + cbn [tail_of flat_map app] in E. fold (tail_of (ts ++ kws)) in E. fold (tail_of (ts' ++ kws')) in E. rewrite <- !app_assoc in E. cbn [app lit] in E.
        assert (E' : s ++ 39%N :: tail_of (ts ++ kws) ++ lit ")" = s' ++ 39%N :: tail_of (ts' ++ kws') ++ lit ")") by (injection E as E; exact E). clear E.
        destruct (span_unique no_quote s s' 39%N 39%N (tail_of (ts ++ kws) ++ lit ")") (tail_of (ts' ++ kws') ++ lit ")")) as (<- & _ & E); [| |intros X; apply X; reflexivity|intros X; apply X; reflexivity|exact E'|].
        { intros c Hc. apply Hs, Hc. } { intros c Hc. apply Hs', Hc. }
        destruct (IH _ _ _ _ _ _ _ Ht H2 Ht' H2' E) as [<- <-]. auto.
  Qed.
  Lemma literal_start t s : literal t s -> exists t', t = 39%N :: t'.
  Proof. intros [-> _]. cbn. eauto. Qed.
  Lemma items_start vargs vkws args kws : Forall2 literal args vargs -> Forall2 (keyword U) kws vkws ->
    args ++ kws = [] \/ exists c x, str_join (lit ", ") (args ++ kws) = c :: x /\ c <> 41%N /\ forall e, str_join (lit ", ") (args ++ kws) ++ e = c :: x ++ e.
  Proof.
    intros H1 H2. inversion H1 as [|t s ts ? Hl _]; subst.
    - inversion H2 as [|t kw ts ? Hk _]; subst; [left; reflexivity|]. right. destruct (keyword_start _ _ Hk) as (c & t' & -> & _ & Hc).
      cbn [app]. rewrite join_tail. cbn. eauto.
    - right. destruct (literal_start _ _ Hl) as [t' ->]. cbn [app]. rewrite join_tail. cbn. eexists _, _. split; [reflexivity|]. split; [discriminate|]. intros e. reflexivity.
  Qed.
  Lemma denotes_unique t c c' : denotes U t c -> denotes U t c' -> c = c'.
  Proof.
    intros (Hi & args & kws & -> & H1 & H2) (Hi' & args' & kws' & E & H1' & H2'). destruct c as [n va vk], c' as [n' va' vk']. cbn [ce_name ce_args ce_kwargs] in *.
    destruct (span_unique (fun c => c <> 40%N) n n' 40%N 40%N (str_join (lit ", ") (args ++ kws) ++ lit ")") (str_join (lit ", ") (args' ++ kws') ++ lit ")")) as (<- & _ & E'); [| |intros X; apply X; reflexivity|intros X; apply X; reflexivity|exact E|].
    { intros c Hc X. subst c. revert Hc. eapply id_not; eauto; try reflexivity; discriminate. }
    { intros c Hc X. subst c. revert Hc. eapply id_not; eauto; try reflexivity; discriminate. }
    clear E. assert (G : va = va' /\ vk = vk'); [|destruct G; subst; reflexivity].
    destruct (items_start _ _ _ _ H1 H2) as [Z1|(c & x & _ & Hc & Z1)], (items_start _ _ _ _ H1' H2') as [Z2|(c' & x' & _ & Hc' & Z2)].
    - apply app_eq_nil in Z1 as [-> ->]. apply app_eq_nil in Z2 as [-> ->]. inversion H1; inversion H2; inversion H1'; inversion H2'; auto.
    - exfalso. rewrite Z1, Z2 in E'. cbn in E'. injection E' as E' _. congruence.
    - exfalso. rewrite Z1, Z2 in E'. cbn in E'. injection E' as E' _. congruence.
    - eapply (items_unique va vk args kws va' vk' args' kws'); eauto.
      assert (X : forall items, str_join (lit ", ") items ++ lit ")" <> lit ")" -> tail_of items = lit ", " ++ str_join (lit ", ") items).
      { intros [|y l] Hn; [exfalso; apply Hn; reflexivity|]. rewrite join_tail. reflexivity. }
      rewrite !X, <- !app_assoc, E'; [reflexivity|..].
      + rewrite Z2. cbn. congruence.
      + rewrite Z1. cbn. congruence.
  Qed.
End Denotes.

(** ** what layers print *)
Section Printed.
  Context (U : unicode) (HU : unicode_ok U) (printable : N -> bool) (Hpr : prints_words U printable).
  (** characters printed as they are *)
  Definition plain_char (c : N) : Prop := u_alnum U c = true \/ c = c_ell \/ In c (lit "_.() ->").
  Lemma written_chars au ad s e c : written_as U au ad s e -> In c s -> plain_char c.
  Proof.
    intros [ts [Hs [He _]]] Hin. destruct (is_sep c) eqn:Es.
    - right; right. unfold is_sep in Es. rewrite !orb_true_iff, !N.eqb_eq in Es. cbn. unfold c_open, c_close, c_space in Es. intuition.
    - apply spells_iff in Hs; subst ts. apply structured_by in He. destruct (lex_chars s None c Hin Es) as [w [Hw Hc]].
      destruct (struct_words _ _ _ _ He _ Hw) as [a [Ha _]]. inversion Ha; subst.
      + right; right. cbn in Hc |- *. intuition.
      + left. destruct (isdecimal_digits U w H c Hc) as [d Hd]. apply (uo_digit_alnum U HU) in Hd. exact Hd.
      + destruct H as [->|[_ [H _]]].
        * destruct Hc as [<-|[]]. right; left; reflexivity.
        * destruct (H _ Hc) as [X|X]; [left; exact X|]. right; right. subst c. left. reflexivity.
  Qed.
  Lemma reads_chars p L R c : reads U p L R -> In c p -> plain_char c.
  Proof.
    intros (l & r & -> & Hl & Hr) Hc. apply in_app_or in Hc as [Hc|Hc]; [exact (written_chars _ _ _ _ _ Hl Hc)|]. apply in_app_or in Hc as [Hc|Hc]; [|exact (written_chars _ _ _ _ _ Hr Hc)].
    right; right. cbn in Hc |- *. intuition.
  Qed.
  Lemma plain_not c : plain_char c -> (c < 128)%N -> ascii_letter c = true \/ ascii_digit c = true \/ In c (lit "_.() ->").
  Proof.
    intros [H|[->|H]] Hl; [|discriminate|auto]. rewrite (uo_alnum U HU) in H by exact Hl. apply orb_true_iff in H. tauto.
  Qed.
  Lemma plain_excl c d : plain_char c -> (d < 128)%N -> ascii_letter d = false -> ascii_digit d = false -> existsb (N.eqb d) (lit "_.() ->") = false -> c <> d.
  Proof.
    intros H Hl H1 H2 H3 ->. destruct (plain_not d H Hl) as [X|[X|X]]; try congruence.
    assert (existsb (N.eqb d) (lit "_.() ->") = true) by (apply existsb_exists; exists d; split; [exact X|apply N.eqb_refl]). congruence.
  Qed.
  Lemma plain_literal c : plain_char c -> literal_char c.
  Proof. intros H. unfold literal_char. repeat split; apply plain_excl; auto; reflexivity. Qed.
  Lemma plain_escape c : plain_char c -> escape printable c_quote c = [c].
  Proof.
    intros H. unfold escape.
    rewrite (proj2 (N.eqb_neq c c_quote)) by (apply plain_excl; auto; reflexivity). rewrite (proj2 (N.eqb_neq c c_back)) by (apply plain_excl; auto; reflexivity).
    rewrite (proj2 (N.eqb_neq c 9)) by (apply plain_excl; auto; reflexivity). rewrite (proj2 (N.eqb_neq c 10)) by (apply plain_excl; auto; reflexivity).
    rewrite (proj2 (N.eqb_neq c 13)) by (apply plain_excl; auto; reflexivity). rewrite (proj2 (N.eqb_neq c 127)) by (apply plain_excl; auto; reflexivity).
    cbn [orb]. rewrite orb_false_r. destruct (N.ltb_spec c 32) as [Hl|Hl].
    - exfalso. destruct (plain_not c H ltac:(lia)) as [X|[X|X]].
      + unfold ascii_letter in X. rewrite orb_true_iff, !andb_true_iff, !N.leb_le in X. lia.
      + unfold ascii_digit in X. rewrite andb_true_iff, !N.leb_le in X. lia.
      + cbn in X. repeat (destruct X as [X|X]; [subst c; lia|]). destruct X.
    - destruct (N.ltb_spec c 127) as [Hl'|Hl']; [reflexivity|]. destruct Hpr as [P1 P2].
      assert (E : printable c = true); [|rewrite E; reflexivity]. destruct H as [H|[->|H]]; auto.
      exfalso. cbn in H. repeat (destruct H as [H|H]; [subst c; lia|]). destruct H.
  Qed.
  Lemma plain_repr s : (forall c, In c s -> plain_char c) -> str_repr printable s = lit "'" ++ s ++ lit "'".
  Proof.
    intros H. unfold str_repr. assert (E : has_char c_quote s = false).
    { unfold has_char. apply not_true_is_false. intros X. apply existsb_exists in X as [c [Hc X]]. apply N.eqb_eq in X. subst c. exact (proj1 (plain_literal _ (H _ Hc)) eq_refl). }
    rewrite E. cbn [andb]. change [c_quote] with (lit "'"). f_equal. f_equal. clear E. induction s as [|c s IH]; [reflexivity|]. cbn [flat_map].
    rewrite plain_escape by (apply H; left; reflexivity). cbn. f_equal. apply IH. intros d Hd. apply H. right. exact Hd.
  Qed.
  Lemma plain_lit s : (forall c, In c s -> plain_char c) -> literal (lit "'" ++ s ++ lit "'") s.
  Proof. intros H. split; [reflexivity|]. intros c Hc. apply plain_literal, H, Hc. Qed.
  Lemma repr_literal s : (forall c, In c s -> plain_char c) -> literal (str_repr printable s) s.
  Proof. intros H. rewrite plain_repr by exact H. apply plain_lit, H. Qed.

  Definition kw_text (kw : pystr * Z) : pystr := fst kw ++ lit "=" ++ str_of_int (snd kw).
  Lemma add_lengths_tail sizes : forall params, add_lengths sizes params = params ++ tail_of (map kw_text sizes).
  Proof.
    unfold add_lengths. induction sizes as [|[k z] sizes IH]; intros params; cbn [fold_left map tail_of flat_map]; [symmetry; apply app_nil_r|].
    rewrite IH. unfold kw_text at 2. cbn [fst snd]. rewrite <- !app_assoc. reflexivity.
  Qed.
  Lemma kws_ok (sizes : list (pystr * Z)) : (forall k, In k (map fst sizes) -> isidentifier U k = true) -> Forall2 (keyword U) (map kw_text sizes) sizes.
  Proof.
    induction sizes as [|[k z] sizes IH]; intros H; constructor.
    - split; [apply H; left; reflexivity|]. eexists. split; [reflexivity|]. apply int_numeral.
    - apply IH. intros k' Hk. apply H. right. exact Hk.
  Qed.
  Lemma printed_call cls first others lits args sizes :
    isidentifier U cls = true -> Forall2 literal (first :: others) args -> lits = first ++ tail_of others ->
    (forall k, In k (map fst sizes) -> isidentifier U k = true) ->
    denotes U (as_call cls (add_lengths sizes lits)) (mkCall cls args sizes).
  Proof.
    intros Hc Hl -> Hk. split; [exact Hc|]. cbn [ce_name ce_args ce_kwargs]. exists (first :: others), (map kw_text sizes).
    split; [|split; [exact Hl|apply kws_ok; exact Hk]]. unfold as_call. rewrite add_lengths_tail. cbn [app]. rewrite join_tail.
    unfold tail_of. rewrite flat_map_app, <- !app_assoc. reflexivity.
  Qed.

  Section Layers_.
    Context {A : Type}.
    Lemma made_names os pattern (red : reduction (tensor A)) sizes L : (forall n, orders_ok (os n)) -> make_layer U os pattern red sizes = Ok L ->
      (forall c, In c pattern -> plain_char c) /\ (forall k, In k (map fst sizes) -> isidentifier U k = true).
    Proof.
      intros Ho H. apply bind_Ok in H as [recipes [H _]]. apply all_dims_ok in H as (l & rr & Hpre & _); [|exact HU|exact Ho].
      destruct (Hpre 0) as [Hr _ _ _ Hn _]. split; [intros c; eapply reads_chars; eauto|]. intros k Hk. destruct (Hn k Hk) as [Hne Hin].
      destruct Hr as (lt & rt & _ & Hl & Hrt). apply in_app_or in Hin as [Hin|Hin].
      - destruct (written_keys U _ _ _ _ _ Hl Hin); [contradiction|assumption].
      - destruct (written_keys U _ _ _ _ _ Hrt Hin); [contradiction|assumption].
    Qed.
    Lemma rearrange_denotes os pattern sizes (L : layer (tensor A)) cls : (forall n, orders_ok (os n)) -> isidentifier U cls = true -> Rearrange U os pattern sizes = Ok L ->
      denotes U (Rearrange_repr printable cls L) (mkCall cls [pattern] sizes).
    Proof.
      intros Ho Hc H. unfold Rearrange in H. apply bind_Ok in H as [[] [_ H]]. destruct (made_fields U _ _ _ _ _ H) as (E1 & _ & E3).
      destruct (made_names _ _ _ _ _ Ho H) as [Hp Hk]. unfold Rearrange_repr. rewrite E1, E3.
      eapply (printed_call cls _ []); eauto; [constructor; [apply repr_literal; exact Hp|constructor]|]. cbn [tail_of flat_map]. symmetry. apply app_nil_r.
    Qed.
    Lemma reduction_chars s c : In s reductions -> In c s -> plain_char c.
    Proof.
      intros Hs Hc. left. rewrite (uo_alnum U HU). 2:{ cbn in Hs. repeat (destruct Hs as [<-|Hs]; [cbn in Hc; repeat (destruct Hc as [<-|Hc]; [reflexivity|]); destruct Hc|]). destruct Hs. }
      cbn in Hs. repeat (destruct Hs as [<-|Hs]; [cbn in Hc; repeat (destruct Hc as [<-|Hc]; [reflexivity|]); destruct Hc|]). destruct Hs.
    Qed.
    Lemma role_chars s c : op_role (op_of (T := tensor A) (RStr s)) <> None -> In c s -> plain_char c.
    Proof.
      cbn [op_of op_role]. destruct (str_eqb s s_rearrange) eqn:E1.
      { intros _. apply str_eqb_eq in E1. subst s. intros Hc. left. cbn in Hc. repeat (destruct Hc as [<-|Hc]; [rewrite (uo_alnum U HU); reflexivity|]). destruct Hc. }
      destruct (str_eqb s s_repeat) eqn:E2.
      { intros _. apply str_eqb_eq in E2. subst s. intros Hc. left. cbn in Hc. repeat (destruct Hc as [<-|Hc]; [rewrite (uo_alnum U HU); reflexivity|]). destruct Hc. }
      destruct (str_mem s reductions) eqn:E3; [|intros X; contradiction]. intros _. apply str_mem_In in E3. apply reduction_chars. exact E3.
    Qed.
    Lemma reduce_denotes fr os pattern s sizes (L : layer (tensor A)) cls : (forall n, orders_ok (os n)) -> isidentifier U cls = true -> Reduce U os pattern (RStr s) sizes = Ok L ->
      denotes U (Reduce_repr printable fr cls L) (mkCall cls [pattern; s] sizes).
    Proof.
      intros Ho Hc H. unfold Reduce in H. apply bind_Ok in H as [[] [_ H]]. destruct (made_fields U _ _ _ _ _ H) as (E1 & E2 & E3).
      destruct (made_names _ _ _ _ _ Ho H) as [Hp Hk].
      assert (Hrole : op_role (op_of (T := tensor A) (RStr s)) <> None).
      { apply bind_Ok in H as [recipes [H _]]. apply all_dims_ok in H as (l & rr & Hpre & _); [|exact HU|exact Ho]. destruct (Hpre 0) as [_ [w [Hw _]] _ _ _ _]. congruence. }
      unfold Reduce_repr. rewrite E1, E2, E3. eapply (printed_call cls _ [str_repr printable s]); eauto.
      - constructor; [apply repr_literal; exact Hp|constructor; [|constructor]]. apply repr_literal. intros c. apply role_chars. exact Hrole.
      - cbn [tail_of flat_map]. rewrite app_nil_r. reflexivity.
    Qed.
    (** EinMix *)
    Lemma mix_names os os' pattern wt bt sizes (M : einmix (tensor A)) : EinMix U os os' pattern wt bt sizes = Ok M ->
      em_pattern M = pattern /\ em_weight_text M = wt /\ em_bias_text M = bt /\ em_sizes M = sizes /\
      (forall c, In c pattern -> plain_char c) /\ (forall c, In c wt -> plain_char c) /\ (forall b c, bt = Some b -> In c b -> plain_char c) /\
      (forall k, In k (map fst sizes) -> plain_name U k).
    Proof.
      intros H. unfold EinMix in H. apply bind_Ok in H as [u [_ H]]. unfold initialize_einmix in H. apply bind_Ok in H as [v [H0 H]]. unfold einmix_parse in H0.
      destruct (str_split s_arrow pattern) as [|l [|r [|? ?]]] eqn:E; try discriminate.
      apply bind_Ok in H0 as [[p1 n1] [H1 H0]]. apply bind_Ok in H0 as [[p2 n2] [H2 H0]]. apply bind_Ok in H0 as [[p3 n3] [H3 H0]].
      repeat (apply bind_Ok in H0 as [? [_ H0]]). injection H0 as <-. cbn [fst snd] in H.
      apply bind_Ok in H as [[pre post] [_ H]]. apply bind_Ok in H as [u1 [Hck H]]. apply bind_Ok in H as [wl [_ H]]. apply bind_Ok in H as [fi [_ H]].
      apply bind_Ok in H as [bl [Hb H]]. apply bind_Ok in H as [u2 [_ H]]. apply bind_Ok in H as [text [_ H]]. injection H as <-. cbn [em_pattern em_weight_text em_bias_text em_sizes].
      apply (parse_expression_iff U HU) in H1 as (L & WL & E1). apply (parse_expression_iff U HU) in H2 as (R & WR & E2). apply (parse_expression_iff U HU) in H3 as (W & WW & E3).
      assert (Hr : reads U pattern L R) by (apply (reads_split U HU); exists l, r; auto).
      do 4 (split; [reflexivity|]). split; [intros c; eapply reads_chars; eauto|]. split; [intros c; exact (written_chars _ _ _ _ c WW)|]. split.
      - intros b c -> Hc. unfold bias_lengths in Hb. apply bind_Ok in Hb as [[bp nb] [Hb _]]. apply (parse_expression_iff U HU) in Hb as (B & WB & _). exact (written_chars _ _ _ _ _ WB Hc).
      - intros k Hk. unfold einmix_check in Hck. apply bind_Ok in Hck as [u3 [_ Hck]]. apply bind_Ok in Hck as [[] [Hck _]]. apply report_ok in Hck.
        assert (Hin : In (AxName k) (set_union (p_identifiers p1) (p_identifiers p3))) by (apply Hck, in_map, Hk). apply in_union in Hin as [Hin|Hin].
        + eapply (written_keys U _ _ _ _ _ WL). replace p1 with (fst (compile 0 L)) in Hin by (rewrite <- E1; reflexivity). rewrite ids_eq in Hin. exact (proj1 (in_ids _ _ _) Hin).
        + eapply (written_keys U _ _ _ _ _ WW). replace p3 with (fst (compile n2 W)) in Hin by (rewrite <- E3; reflexivity). rewrite ids_eq in Hin. exact (proj1 (in_ids _ _ _) Hin).
    Qed.
    Lemma einmix_denotes os os' pattern wt bt sizes (M : einmix (tensor A)) cls : ~ In ell_name (map fst sizes) -> isidentifier U cls = true -> EinMix U os os' pattern wt bt sizes = Ok M ->
      denotes U (EinMix_repr printable cls M) (mkCall cls ([pattern; wt] ++ match bt with Some b => [b] | None => [] end) sizes).
    Proof.
      intros He Hc H. destruct (mix_names _ _ _ _ _ _ _ H) as (E1 & E2 & E3 & E4 & Hp & Hw & Hb & Hk). unfold EinMix_repr. rewrite E1, E2, E3, E4.
      assert (Hk' : forall k, In k (map fst sizes) -> isidentifier U k = true). { intros k Hk0. destruct (Hk k Hk0) as [->|X]; [contradiction|exact X]. }
      eapply (printed_call cls (str_repr printable pattern) ((lit "'" ++ wt ++ lit "'") :: match bt with Some b => [lit "'" ++ b ++ lit "'"] | None => [] end)); eauto.
      - constructor; [apply repr_literal; exact Hp|]. constructor; [apply plain_lit; exact Hw|]. destruct bt as [b|]; constructor; [|constructor]. apply plain_lit. intros c. apply Hb. reflexivity.
      - destruct bt as [b|]; cbn [tail_of flat_map]; rewrite ?app_nil_r; [|reflexivity]. rewrite <- !app_assoc. reflexivity.
    Qed.
    Lemma einmix_config_saved os os' os2 os2' pattern wt bt sizes (M : einmix (tensor A)) :
      (forall n, orders_ok (os n)) -> (forall n, orders_ok (os' n)) -> (forall n, orders_ok (os2 n)) -> (forall n, orders_ok (os2' n)) ->
      NoDup (map fst sizes) -> EinMix U os os' pattern wt bt sizes = Ok M ->
      EinMix_from_config U os2 os2' (EinMix_config M) = EinMix U os2 os2' pattern wt bt sizes.
    Proof.
      intros Ho Ho' Ho2 Ho2' Hn H. destruct (mix_names _ _ _ _ _ _ _ H) as (E1 & E2 & E3 & E4 & _). pose proof H as H0. unfold EinMix in H0. apply bind_Ok in H0 as [[] [Hk _]].
      pose proof (kwargs_free _ _ Hk) as Hf. unfold EinMix_config. rewrite E1, E2, E3, E4.
      set (d := [(lit "pattern", VStr pattern); (lit "weight_shape", VStr wt); (lit "bias_shape", match bt with Some b => VStr b | None => @VNone (tensor A) end)]).
      assert (Hfree : forall k, In k (map fst sizes) -> ~ In k (map fst d)). { intros k Hk' X. apply (Hf k Hk'). right. exact X. }
      rewrite merge_fresh; [|exact Hn|exact Hfree]. unfold EinMix_from_config.
      set (c := d ++ map (fun '(k, z) => (k, VInt z)) sizes).
      assert (G1 : dict_get str_eqb (lit "pattern") c = Some (VStr pattern)) by reflexivity.
      assert (G2 : dict_get str_eqb (lit "weight_shape") c = Some (VStr wt)) by reflexivity.
      assert (G3 : dict_get str_eqb (lit "bias_shape") c = Some (match bt with Some b => VStr b | None => VNone end)) by reflexivity.
      rewrite G1, G2, G3. replace (match match bt with Some b => @VStr (tensor A) b | None => VNone end with VStr b => Ok (Some b) | VNone => Ok None | _ => Err TypeError end) with (Ok bt) by (destruct bt; reflexivity).
      cbn [bind]. unfold c. rewrite rest_sizes; [reflexivity|..].
      - intros k Hk' X. apply (Hfree k Hk'). exact X.
      - intros kv [<-|[<-|[<-|[]]]]; cbn; auto.
    Qed.
  End Layers_.
End Printed.

(** ** the call that is printed makes the same layer *)
Section Again.
  Context {A : Type} (U : unicode) (HU : unicode_ok U) (printable : N -> bool) (Hpr : prints_words U printable).
  Context (os os' os2 os2' : nat -> orders) (Ho : forall n, orders_ok (os n)) (Ho' : forall n, orders_ok (os' n))
    (Ho2 : forall n, orders_ok (os2 n)) (Ho2' : forall n, orders_ok (os2' n)).
  Context (cls : pystr) (Hcls : isidentifier U cls = true) (sizes : list (pystr * Z)) (Hn : NoDup (map fst sizes)).
  Lemma rearrange_again pattern (L : layer (tensor A)) : Rearrange U os pattern sizes = Ok L ->
    denotes U (Rearrange_repr printable cls L) (mkCall cls [pattern] sizes) /\
    forall c, denotes U (Rearrange_repr printable cls L) c ->
      ce_name c = cls /\ exists p, ce_args c = [p] /\ exists L', Rearrange U os2 p (ce_kwargs c) = Ok L' /\
        forall r x, runtime_ok r -> rt_unicode r = U -> call_layer r L' x = call_layer r L x.
  Proof.
    intros H. pose proof (rearrange_denotes U HU printable Hpr os pattern sizes L cls Ho Hcls H) as Hd. split; [exact Hd|].
    intros c Hc. rewrite (denotes_unique U HU _ _ _ Hc Hd). cbn [ce_name ce_args ce_kwargs]. split; [reflexivity|]. exists pattern. split; [reflexivity|].
    destruct (rearrange_saved U HU os os2 pattern sizes L Ho Ho2 Hn H) as (L' & H' & _ & Hcall). exists L'. split; [|exact Hcall].
    unfold Rearrange_setstate, Rearrange_getstate in H'. cbn [fst snd] in H'. unfold Rearrange in H. apply bind_Ok in H as [[] [_ H]].
    destruct (made_fields U _ _ _ _ _ H) as (E1 & _ & E3). rewrite E1, E3 in H'. exact H'.
  Qed.
  Lemma reduce_again fr pattern s (L : layer (tensor A)) : Reduce U os pattern (RStr s) sizes = Ok L ->
    denotes U (Reduce_repr printable fr cls L) (mkCall cls [pattern; s] sizes) /\
    forall c, denotes U (Reduce_repr printable fr cls L) c ->
      ce_name c = cls /\ exists p s', ce_args c = [p; s'] /\ exists L', Reduce U os2 p (RStr s') (ce_kwargs c) = Ok L' /\
        forall r x, runtime_ok r -> rt_unicode r = U -> call_layer r L' x = call_layer r L x.
  Proof.
    intros H. pose proof (reduce_denotes U HU printable Hpr fr os pattern s sizes L cls Ho Hcls H) as Hd. split; [exact Hd|].
    intros c Hc. rewrite (denotes_unique U HU _ _ _ Hc Hd). cbn [ce_name ce_args ce_kwargs]. split; [reflexivity|]. exists pattern, s. split; [reflexivity|].
    destruct (reduce_saved U HU os os2 pattern (RStr s) sizes L Ho Ho2 Hn H) as (L' & H' & _ & Hcall). exists L'. split; [|exact Hcall].
    unfold Reduce_setstate, Reduce_getstate in H'. unfold Reduce in H. apply bind_Ok in H as [[] [_ H]].
    destruct (made_fields U _ _ _ _ _ H) as (E1 & E2 & E3). rewrite E1, E2, E3 in H'. exact H'.
  Qed.
  Definition same_mix (M M' : einmix (tensor A)) : Prop :=
    em_pattern M' = em_pattern M /\ em_weight_text M' = em_weight_text M /\ em_bias_text M' = em_bias_text M /\ em_sizes M' = em_sizes M /\
    em_weight M' = em_weight M /\ em_bias M' = em_bias M /\ em_fan_in M' = em_fan_in M /\ em_einsum M' = em_einsum M /\
    forall r lib iadd w b x, runtime_ok r -> rt_unicode r = U -> call_einmix r lib iadd M' w b x = call_einmix r lib iadd M w b x.
  Lemma mix_again pattern wt bt (M : einmix (tensor A)) : EinMix U os os' pattern wt bt sizes = Ok M ->
    exists M', EinMix U os2 os2' pattern wt bt sizes = Ok M' /\ same_mix M M'.
  Proof.
    intros H. pose proof (einmix_orders (A := A) U HU os os' os2 os2' pattern wt bt sizes Ho Ho' Ho2 Ho2' Hn) as G. rewrite H in G.
    destruct (EinMix U os2 os2' pattern wt bt sizes) as [M'|]; [|contradiction]. exists M'. split; [reflexivity|exact G].
  Qed.
  Lemma einmix_again pattern wt bt (M : einmix (tensor A)) : ~ In ell_name (map fst sizes) -> EinMix U os os' pattern wt bt sizes = Ok M ->
    denotes U (EinMix_repr printable cls M) (mkCall cls (pattern :: wt :: match bt with Some b => [b] | None => [] end) sizes) /\
    forall c, denotes U (EinMix_repr printable cls M) c ->
      ce_name c = cls /\ exists p w b, ce_args c = p :: w :: b /\ length b <= 1 /\ exists M', EinMix U os2 os2' p w (hd_error b) (ce_kwargs c) = Ok M' /\ same_mix M M'.
  Proof.
    intros He H. pose proof (einmix_denotes U HU printable Hpr os os' pattern wt bt sizes M cls He Hcls H) as Hd. split; [exact Hd|].
    intros c Hc. rewrite (denotes_unique U HU _ _ _ Hc Hd). cbn [ce_name ce_args ce_kwargs app]. split; [reflexivity|].
    exists pattern, wt, (match bt with Some b => [b] | None => [] end). split; [reflexivity|]. split; [destruct bt; cbn; lia|].
    replace (hd_error match bt with Some b => [b] | None => [] end) with bt by (destruct bt; reflexivity). apply mix_again. exact H.
  Qed.
  Lemma einmix_config_again pattern wt bt (M : einmix (tensor A)) : EinMix U os os' pattern wt bt sizes = Ok M ->
    exists M', EinMix_from_config U os2 os2' (EinMix_config M) = Ok M' /\ same_mix M M'.
  Proof. intros H. rewrite (einmix_config_saved U HU os os' os2 os2' pattern wt bt sizes M) by auto. apply mix_again. exact H. Qed.
End Again.

(** [bias_shape] has a default *)
Lemma config_default_bias {T} U os os' c : dict_get str_eqb (lit "bias_shape") c = None ->
  EinMix_from_config U os os' c = EinMix_from_config (T := T) U os os' ((lit "bias_shape", VNone) :: c).
Proof. intros E. unfold EinMix_from_config, rest_of. cbn -[lit EinMix]. change (dict_get str_eqb (lit "pattern") ((lit "bias_shape", VNone) :: c)) with (dict_get str_eqb (lit "pattern") c).
  change (dict_get str_eqb (lit "weight_shape") ((lit "bias_shape", VNone) :: c)) with (dict_get str_eqb (lit "weight_shape") c). rewrite E. reflexivity. Qed.
