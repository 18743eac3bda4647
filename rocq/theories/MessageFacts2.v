(** * Facts: messages of the parser are true *)
From Verif Require Import Py ListFacts Parsing SpecGrammar ParseFacts ParseFacts2 ParseFacts3 Messages SpecMessages MessageFacts.

Lemma then_Wrong {A B} (m : outcome A) (f : A -> outcome B) w :
  and_then m f = Wrong w -> m = Wrong w \/ exists a, m = Fine a /\ f a = Wrong w.
Proof. destruct m; cbn; eauto; try discriminate. intros E; inversion E; auto. Qed.
Lemma if_Wrong c m w : wrong_if c m = Wrong w -> c = true /\ w = m.
Proof. destruct c; cbn; intros E; inversion E; auto. Qed.
Lemma lift_Wrong {A} (r : result A) w : lift r = Wrong w -> w = Foreign /\ r = Err EinopsError.
Proof. destruct r as [a|[]]; cbn; intros E; inversion E; auto. Qed.

Lemma add_wrong U au ad x st m : add_axis_name_msg U au ad x st = Wrong m ->
  (m = Duplicate x /\ In (AxName x) (s_ids st)) \/
  (exists w, m = BadName x w /\ axis_name_reason U au x = Some w /\ isdecimal U x = false) \/
  (m = BadNumber (int_of_str U x) /\ isdecimal U x = true /\ (int_of_str U x <= 0)%Z).
Proof.
  unfold add_axis_name_msg. intros H.
  destruct (axis_mem (AxName x) (s_ids st) && negb (au && str_eqb x [c_under]) && negb ad) eqn:E1.
  { inversion H; subst m. left. split; [reflexivity|]. apply andb_true_iff in E1 as [E1 _]. apply andb_true_iff in E1 as [E1 _]. apply axis_mem_In; exact E1. }
  destruct (str_eqb x ellipsis_str) eqn:E2.
  { apply lift_Wrong in H as [_ H]. unfold add_axis_name in H. rewrite E1, E2 in H. destruct (s_bracket st); discriminate. }
  cbv zeta in H. destruct (isdecimal U x && (int_of_str U x =? 1)%Z) eqn:E3.
  { apply lift_Wrong in H as [_ H]. unfold add_axis_name in H. rewrite E1, E2 in H. cbv zeta in H. rewrite E3 in H. destruct (s_bracket st); discriminate. }
  apply then_Wrong in H as [H|[[] [H0 H]]].
  { destruct (axis_name_reason U au x) as [w|] eqn:E4; [|discriminate]. apply if_Wrong in H as [H ->]. right; left. exists w. apply negb_true_iff in H. auto. }
  apply then_Wrong in H as [H|[[] [H1 H]]].
  { apply if_Wrong in H as [H ->]. apply andb_true_iff in H as [H H']. rewrite H in E3. cbn [andb] in E3. apply Z.leb_le in H'. apply Z.eqb_neq in E3.
    right; right. split; [reflexivity|]. split; [exact H|lia]. }
  apply lift_Wrong in H as [_ H]. exfalso. unfold add_axis_name in H. rewrite E1, E2 in H. cbv zeta in H. rewrite E3 in H.
  replace (isdecimal U x || check_axis_name U au x) with true in H.
  2:{ symmetry. rewrite <- (reason_check U au x). destruct (axis_name_reason U au x); [|apply orb_true_r]. destruct (isdecimal U x); [reflexivity|discriminate]. }
  cbn [negb] in H. destruct (isdecimal U x && (int_of_str U x <=? 1)%Z); [discriminate|]. destruct (s_bracket st); discriminate.
Qed.

Lemma ell_not_decimal U : unicode_ok U -> isdecimal U ellipsis_str = false.
Proof. intros HU. unfold isdecimal, ellipsis_str. cbn [forallb andb]. destruct (uo_ell U HU) as [_ [-> _]]. reflexivity. Qed.

Lemma add_fine U au ad x st st' : unicode_ok U -> add_axis_name U au ad x st = Ok st' ->
  forall y, In (AxName y) (s_ids st') -> In (AxName y) (s_ids st) \/ (y = x /\ isdecimal U x = false).
Proof.
  unfold add_axis_name. intros HU H y.
  destruct (axis_mem (AxName x) (s_ids st) && negb (au && str_eqb x [c_under]) && negb ad); [discriminate|].
  destruct (str_eqb x ellipsis_str) eqn:E2.
  { apply str_eqb_eq in E2. subst x. destruct (s_bracket st); inversion H; subst st'; cbn [s_ids]; rewrite set_add_In; (intros [E|E]; [|auto]);
      inversion E; right; split; auto; apply ell_not_decimal; exact HU. }
  cbv zeta in H. destruct (isdecimal U x && (int_of_str U x =? 1)%Z).
  { destruct (s_bracket st); inversion H; subst st'; auto. }
  destruct (negb (isdecimal U x || check_axis_name U au x)); [discriminate|]. destruct (isdecimal U x && (int_of_str U x <=? 1)%Z); [discriminate|].
  destruct (isdecimal U x) eqn:E; destruct (s_bracket st); inversion H; subst st'; cbn [s_ids]; rewrite set_add_In; (intros [E'|E']; [|auto]); inversion E'; auto.
Qed.

(** what is known after reading the tokens [done] *)
Record reading (U : unicode) (done : list token) (st : pstate) : Prop := {
  rd_ids : forall y, In (AxName y) (s_ids st) -> In (TWord y) done /\ isdecimal U y = false;
  rd_open : forall g, s_bracket st = Some g -> exists ts1 ws, done = ts1 ++ TOpen :: map TWord ws;
  rd_closed : s_bracket st = None -> forall a b, done = a ++ TOpen :: b -> In TClose b
}.

Lemma app_last_open (done a b : list token) w : done ++ [TWord w] = a ++ TOpen :: b -> exists b', b = b' ++ [TWord w] /\ done = a ++ TOpen :: b'.
Proof.
  intros E. destruct (exists_last (l := TOpen :: b)) as [b' [t Eb]]; [discriminate|]. rewrite Eb, app_assoc in E. apply app_inj_tail in E as [E <-].
  destruct b' as [|t' b']; [cbn in Eb; discriminate Eb|]. inversion Eb; subst. exists b'. auto.
Qed.

Lemma reading_word U au ad done st x st' : unicode_ok U -> reading U done st -> add_axis_name U au ad x st = Ok st' ->
  reading U (done ++ [TWord x]) st'.
Proof.
  intros HU [H1 H2 H3] E. pose proof (add_fine U au ad x st st' HU E) as Hf. pose proof (add_axis_name_bracket U au ad x st st' E) as Hb. constructor.
  - intros y Hy. apply Hf in Hy as [Hy|[-> Hx]]; [destruct (H1 y Hy) as [? ?]; split; [apply in_or_app; auto|auto]|]. split; [apply in_or_app; right; left; reflexivity|exact Hx].
  - intros g Hg. destruct (s_bracket st) as [g0|] eqn:E0; [|rewrite (proj1 Hb eq_refl) in Hg; discriminate].
    destruct (H2 g0 eq_refl) as [ts1 [ws ->]]. exists ts1, (ws ++ [x]). rewrite map_app, <- app_assoc. reflexivity.
  - intros Hn a b Eab. apply app_last_open in Eab as [b' [-> Ed]]. apply in_or_app. left. apply (H3 (proj2 Hb Hn) a b' Ed).
Qed.

Definition true_of_tokens (U : unicode) (s' : pystr) (ts : list token) (m : mistake) : Prop :=
    match m with
    | Duplicate x => isdecimal U x = false /\ exists ts1 ts2 ts3, ts = ts1 ++ TWord x :: ts2 ++ TWord x :: ts3
    | BadName x NotIdentifier => In (TWord x) ts /\ isdecimal U x = false /\ isidentifier U x = false
    | BadName x OuterUnderscore => In (TWord x) ts /\ isdecimal U x = false /\ (hd 0%N x = c_under \/ last x 0%N = c_under)
    | BadNumber v => (v <= 0)%Z /\ exists x, In (TWord x) ts /\ isdecimal U x = true /\ int_of_str U x = v
    | NestedBrackets => exists ts1 ws ts2, ts = ts1 ++ TOpen :: map TWord ws ++ TOpen :: ts2
    | UnopenedBracket => exists ts1 ts2, ts = ts1 ++ TClose :: ts2 /\ forall a b, ts1 = a ++ TOpen :: b -> In TClose b
    | UnknownChar c => In c s' /\ ~ separator c /\ u_alnum U c = false /\ c <> c_under /\ c <> c_ell
    | UnclosedBracket w => w = s' /\ exists ts1 ws, ts = ts1 ++ TOpen :: map TWord ws
    | _ => False
    end.

Lemma word_true U au ad whole done st x rest m : reading U done st -> add_axis_name_msg U au ad x st = Wrong m ->
  lex None whole = done ++ TWord x :: rest -> true_of_tokens U whole (lex None whole) m.
Proof.
  intros Hr H E. rewrite E. assert (Hin : In (TWord x) (done ++ TWord x :: rest)) by (apply in_or_app; right; left; reflexivity).
  apply add_wrong in H as [[-> H]|[[w [-> [Hw Hd]]]|[-> [Hd Hv]]]]; cbn [true_of_tokens].
  - destruct (rd_ids U done st Hr x H) as [Hx Hd]. split; [exact Hd|]. apply in_split in Hx as [l1 [l2 ->]]. exists l1, l2, rest. rewrite <- app_assoc. reflexivity.
  - unfold axis_name_reason in Hw. destruct (isidentifier U x) eqn:Ei; cbn [negb] in Hw.
    + destruct ((hd 0%N x =? c_under)%N || (last x 0%N =? c_under)%N) eqn:Eu; [|discriminate].
      destruct (str_eqb x [c_under] && au); [discriminate|]. inversion Hw; subst w. split; [exact Hin|]. split; [exact Hd|].
      apply orb_true_iff in Eu as [Eu|Eu]; apply N.eqb_eq in Eu; auto.
    + inversion Hw; subst w. auto.
  - split; [exact Hv|]. exists x. auto.
Qed.

Lemma loop_true U au ad whole cs : unicode_ok U -> forall done cur st m,
  reading U done st -> lex None whole = done ++ lex cur cs -> (exists pre, whole = pre ++ cs) ->
  parse_loop_msg U au ad whole cs cur st = Wrong m -> true_of_tokens U whole (lex None whole) m.
Proof.
  intros HU. induction cs as [|c cs IH]; intros done cur st m Hr Hl [pre Hp] H; cbn [parse_loop_msg lex] in *.
  - destruct (s_bracket st) as [g|] eqn:Eb.
    + inversion H; subst m. cbn [true_of_tokens]. split; [reflexivity|]. rewrite Hl. destruct (rd_open U done st Hr g Eb) as [ts1 [ws ->]].
      exists ts1, (ws ++ match cur with Some w => [w] | None => [] end). rewrite map_app, <- app_assoc. cbn [app]. destruct cur; reflexivity.
    + destruct cur as [x|]; [|discriminate]. exact (word_true U au ad whole done st x [] m Hr H Hl).
  - replace ((c =? c_open)%N || (c =? c_close)%N || (c =? c_space)%N) with (is_sep c) in H by reflexivity.
    assert (Hp' : exists pre', whole = pre' ++ cs) by (exists (pre ++ [c]); rewrite <- app_assoc; exact Hp).
    destruct (is_sep c) eqn:Es.
    + apply then_Wrong in H as [H|[st1 [H1 H]]].
      * destruct cur as [x|]; [|discriminate]. apply (word_true U au ad whole done st x _ m Hr H Hl).
      * assert (Hr1 : reading U (done ++ tok_of cur) st1).
        { destruct cur as [x|]; cbn [flush_msg tok_of] in *.
          - apply (reading_word U au ad done st x st1 HU Hr). rewrite <- plain_add, H1. reflexivity.
          - inversion H1; subst st1. rewrite app_nil_r. exact Hr. }
        rewrite app_assoc in Hl. set (d1 := done ++ tok_of cur) in *. clearbody d1. clear H1 Hr.
        destruct (c =? c_open)%N eqn:Eo.
        { destruct (s_bracket st1) as [g|] eqn:Eb.
          - inversion H; subst m. cbn [true_of_tokens]. destruct (rd_open U d1 st1 Hr1 g Eb) as [ts1 [ws ->]]. rewrite Hl.
            exists ts1, ws, (lex None cs). cbn [app]. rewrite <- app_assoc. reflexivity.
          - apply (IH (d1 ++ [TOpen]) None _ m) in H; [exact H| |rewrite <- app_assoc; exact Hl|exact Hp']. destruct Hr1 as [R1 R2 R3].
            constructor; cbn [s_ids s_bracket].
            + intros y Hy. destruct (R1 y Hy). split; [apply in_or_app; auto|auto].
            + intros g _. exists d1, []. reflexivity.
            + discriminate. }
        destruct (c =? c_close)%N eqn:Ec.
        { destruct (s_bracket st1) as [g|] eqn:Eb.
          - apply (IH (d1 ++ [TClose]) None _ m) in H; [exact H| |rewrite <- app_assoc; exact Hl|exact Hp']. destruct Hr1 as [R1 R2 R3].
            constructor; cbn [s_ids s_bracket].
            + intros y Hy. destruct (R1 y Hy). split; [apply in_or_app; auto|auto].
            + discriminate.
            + intros _ a b E. destruct (exists_last (l := TOpen :: b)) as [b' [t Et]]; [discriminate|]. rewrite Et, app_assoc in E.
              apply app_inj_tail in E as [E Ht]. destruct b' as [|t0 b']; [inversion Et; congruence|]. inversion Et; subst. apply in_or_app; right; left; reflexivity.
          - inversion H; subst m. cbn [true_of_tokens]. exists d1, (lex None cs). split; [rewrite Hl; reflexivity|]. apply (rd_closed U d1 st1 Hr1 Eb). }
        cbn [app] in Hl. exact (IH d1 None st1 m Hr1 Hl Hp' H).
    + destruct (u_alnum U c || (c =? c_under)%N || (c =? c_ell)%N) eqn:Ea.
      * apply (IH done (cur_add cur c) st m Hr Hl Hp'). unfold cur_add. exact H.
      * inversion H; subst m. cbn [true_of_tokens]. apply orb_false_iff in Ea as [Ea Ea3]. apply orb_false_iff in Ea as [Ea1 Ea2].
        split; [rewrite Hp; apply in_or_app; right; left; reflexivity|]. split; [intros Hs; apply is_sep_spec in Hs; congruence|].
        split; [exact Ea1|]. split; intros ->; discriminate.
Qed.

Lemma tokens_side U s s' m : true_of_tokens U s' (lex None s') m -> shown s s' -> about_side m = true /\ true_of_side U s m.
Proof.
  intros H Hs. assert (Hsp : spells s' (lex None s')) by (apply spells_iff; reflexivity).
  destruct m; try contradiction; (split; [reflexivity|]); exists s', (lex None s'); (split; [exact Hs|]); (split; [exact Hsp|]); exact H.
Qed.

Lemma parse_true U au ad k s m : unicode_ok U -> parse_expression_msg U au ad k s = Wrong m -> about_side m = true /\ true_of_side U s m.
Proof.
  intros HU H. unfold parse_expression_msg in H. cbv zeta in H.
  assert (Hdot : str_contains dot s = true <-> In c_dot s).
  { rewrite str_contains_spec. change dot with [c_dot]. split.
    - intros [pre [post ->]]. apply in_or_app. right. left. reflexivity.
    - intros Hin. apply in_split in Hin as [pre [post ->]]. exists pre, post. reflexivity. }
  apply then_Wrong in H as [H|[[] [H1 H]]].
  { apply if_Wrong in H as [H ->]. apply andb_true_iff in H as [Hd Hn]. split; [reflexivity|]. cbn [true_of_side]. split; [apply Hdot; exact Hd|].
    intros pre post ->. apply negb_true_iff in Hn. assert (C : str_contains dots (pre ++ lit "..." ++ post) = true) by (apply str_contains_spec; exists pre, post; reflexivity). congruence. }
  assert (Hc : str_contains dot s = true -> str_contains dots s = true).
  { intros E. rewrite E in H1. destruct (str_contains dots s); [reflexivity|discriminate]. }
  apply then_Wrong in H as [H|[[] [H2 H]]].
  { apply if_Wrong in H as [H ->]. apply andb_true_iff in H as [Hd Hn]. split; [reflexivity|]. cbn [true_of_side].
    apply Hc, str_contains_spec in Hd as [pre [post ->]]. exists pre, post. split; [reflexivity|].
    destruct (in_dec N.eq_dec c_dot (pre ++ post)) as [Hin|Hin]; [exact Hin|exfalso].
    assert (H3 : ~ In c_dot pre /\ ~ In c_dot post) by (split; intros Hx; apply Hin, in_or_app; auto). destruct H3 as [H3 H4].
    rewrite count_dots_one, str_count_dot, !count_dot_app in Hn by assumption. apply count_dot_0 in H3, H4. rewrite H3, H4 in Hn. discriminate. }
  apply then_Wrong in H as [H|[st [_ H]]]; [|discriminate].
  set (s' := if str_contains dot s then str_replace dots ellipsis_str s else s) in *.
  assert (Hs : shown s s').
  { subst s'. destruct (str_contains dot s) eqn:E.
    - right. specialize (Hc eq_refl). apply str_contains_spec in Hc as [pre [post ->]]. exists pre, post.
      destruct (str_count dots (pre ++ dots ++ post) =? 1) eqn:E1; [|discriminate]. destruct (str_count dot (pre ++ dots ++ post) =? 3) eqn:E3; [|discriminate].
      apply Nat.eqb_eq in E3. rewrite str_count_dot, !count_dot_app in E3. change (count_dot dots) with 3 in E3.
      assert (Hpre : ~ In c_dot pre) by (apply count_dot_0; lia). assert (Hpost : ~ In c_dot post) by (apply count_dot_0; lia).
      split; [reflexivity|]. split; [rewrite in_app_iff; tauto|]. rewrite replace_dots_one by assumption. reflexivity.
    - left. split; [|reflexivity]. intros Hin. apply Hdot in Hin. congruence. }
  apply (tokens_side U s s' m); [|exact Hs]. apply (loop_true U au ad s' s' HU [] None (init_pstate k) m); [|reflexivity|exists []; reflexivity|exact H].
  constructor; cbn; [contradiction|discriminate|]. intros _ a b E. destruct a; discriminate.
Qed.
