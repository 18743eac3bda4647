(** * The words of error messages *)
From Coq Require Import DecimalNat.
From Verif Require Import Py ListFacts SpecGrammar Parsing Recipe Ops Layers EinMix SpecTexts Texts TextFacts FrontFacts Messages Complaints LayerMessages SpecWording.

(** ** templates *)
Lemma mistake_words printable callable foreign m :
  mistake_text printable callable foreign m = fmt (of_mistake m) (in_mistake callable foreign (set_text printable) (str_repr printable) m).
Proof.
  destruct m as [v| | |x|x w| | |c|s|p|p| |l|l|l|op l|op|a b|a b|x|x|l|a b|a b|]; cbn -[str_of_int str_of_nat set_text str_repr]; unfold call_text, quoted; cbn -[str_of_int str_of_nat set_text str_repr]; repeat (rewrite <- ?app_assoc, ?app_nil_r; cbn [app]); try reflexivity.
Qed.
Lemma complaint_words opname pattern shapes shape c :
  complaint_text opname pattern shapes shape c =
  fmt (of_complaint c) (in_complaint opname pattern shapes shape (in_mistake [] [] (set_text (fun _ => true)) (str_repr (fun _ => true))) c).
Proof.
  destruct c as [| |x|i s least|s| |n|m|s|s|s|s|s| | | | | | | | |x]; try apply mistake_words; cbn -[str_of_int str_of_nat]; unfold call_text, quoted; cbn -[str_of_int str_of_nat set_text str_repr]; repeat (rewrite <- ?app_assoc, ?app_nil_r; cbn [app]); try reflexivity.
Qed.
Section Faults.
  Context (T : Type) (printable : N -> bool).
  Lemma layer_words self callable foreign m : preparing printable callable foreign self m = fmt of_layer [self; mistake_text printable callable foreign m].
  Proof. unfold preparing. cbn -[mistake_text]. rewrite <- ?app_assoc, ?app_nil_r. reflexivity. Qed.
  Lemma fault_words f : fault_text (T := T) printable f =
    fmt (of_fault f) (in_fault (set_text printable) (str_repr printable) (axis_repr printable)
      (fun p lengths => Rearrange_repr (T := T) printable (lit "Rearrange") (mkLayer p (RStr s_rearrange) lengths [])) f).
  Proof.
    destruct f as [m|l| |p|p| |w|p lengths m|a|l|l|l|l|]; try apply mistake_words;
      try (cbn -[str_of_int str_of_nat set_text str_repr]; rewrite <- ?app_assoc, ?app_nil_r; reflexivity).
    - unfold fault_text, in_fault. rewrite <- mistake_words. apply layer_words.
    - destruct a; cbn -[axis_repr]; rewrite <- ?app_assoc; reflexivity.
  Qed.
End Faults.
Lemma report_words printable callable foreign op pattern where_ sizes m :
  report printable callable foreign op pattern where_ sizes m =
  lit " Error while processing " ++ op_text callable op ++ lit "-reduction pattern """ ++ pattern ++ lit """." ++ [10%N] ++ where_ ++ lit "Additional info: " ++ sizes ++ lit "." ++ [10%N] ++ lit " " ++
  mistake_text printable callable foreign m.
Proof. unfold report, quoted. rewrite <- ?app_assoc. reflexivity. Qed.
Lemma report_shape_words printable callable foreign op pattern shape sizes m :
  report printable callable foreign op pattern (shape_line shape) sizes m = fmt (of_report false) [op_text callable op; pattern; shape; sizes; mistake_text printable callable foreign m].
Proof. rewrite report_words. unfold shape_line. cbn -[mistake_text op_text]. rewrite <- ?app_assoc, ?app_nil_r. reflexivity. Qed.
Lemma report_list_words printable callable foreign op pattern sizes m :
  report printable callable foreign op pattern list_line sizes m = fmt (of_report true) [op_text callable op; pattern; sizes; mistake_text printable callable foreign m].
Proof. rewrite report_words. unfold list_line. cbn -[mistake_text op_text]. rewrite <- ?app_assoc, ?app_nil_r. reflexivity. Qed.

(** ** kinds *)
Lemma nat_first n : exists c t, str_of_nat n = c :: t /\ ascii_digit c = true.
Proof.
  destruct (str_of_nat n) as [|c t] eqn:E; [destruct (str_of_nat_nonnil n E)|]. exists c, t. split; [reflexivity|]. apply (codes_digit (Nat.to_uint n)). unfold str_of_nat in E. rewrite E. left. reflexivity.
Qed.
Lemma int_first z : exists c t, str_of_int z = c :: t /\ (c = 45%N \/ ascii_digit c = true).
Proof.
  pose proof (int_numeral z) as H. destruct (str_of_int z) as [|c t] eqn:E.
  - exfalso. inversion H as [l D E1|]; subst. apply D. reflexivity.
  - exists c, t. split; [reflexivity|]. eapply numeral_char; [exact H|left; reflexivity].
Qed.
Lemma digit_range c : ascii_digit c = true -> (48 <= c <= 57)%N.
Proof. unfold ascii_digit. intros H. apply andb_true_iff in H as [H1 H2]. apply N.leb_le in H1, H2. lia. Qed.
Lemma digit_cases c : ascii_digit c = true -> (c = 48 \/ c = 49 \/ c = 50 \/ c = 51 \/ c = 52 \/ c = 53 \/ c = 54 \/ c = 55 \/ c = 56 \/ c = 57)%N.
Proof. intros H. apply digit_range in H. lia. Qed.
Lemma mistake_kind printable callable foreign m : m <> Foreign -> which mistake_templates (mistake_text printable callable foreign m) = Some (of_mistake m).
Proof.
  intros Hm. destruct m as [v| | |x|x w| | |c|s|p|p| |l|l|l|op l|op|a b|a b|x|x|l|a b|a b|]; try reflexivity; try contradiction.
  - destruct (nat_first a) as (c & t & E & D). unfold mistake_text. rewrite E. apply digit_cases in D.
    repeat (destruct D as [->|D]; [reflexivity|]). subst c. reflexivity.
  - assert (N : str_eqb (mistake_text printable callable foreign (UnusedSize x)) (lit "Axis composition is one-level (brackets inside brackets not allowed)") = false).
    { apply not_true_iff_false. intros X. apply str_eqb_eq in X. apply (f_equal (fun l => last l 0%N)) in X. revert X. cbn [mistake_text].
      change (lit " is not used in transform") with (lit " is not used in transfor" ++ [109%N]). rewrite !app_assoc, last_last. discriminate. }
    revert N. remember (str_eqb (mistake_text printable callable foreign (UnusedSize x)) (lit "Axis composition is one-level (brackets inside brackets not allowed)")) as b eqn:Eb. intros ->.
    unfold which, mistake_templates. cbn [map find of_mistake].
    assert (F : fits (mistake_text printable callable foreign (UnusedSize x)) (lit "Axis composition is one-level (brackets inside brackets not allowed)") = false) by (symmetry; exact Eb).
    rewrite F. reflexivity.
  - destruct (int_first a) as (c & t & E & D). unfold mistake_text. rewrite E. destruct D as [->|D]; [reflexivity|]. apply digit_cases in D.
    repeat (destruct D as [->|D]; [reflexivity|]). subst c. reflexivity.
Qed.
Lemma complaint_kind opname pattern shapes shape c : In (of_complaint c) complaint_templates -> (forall m, c <> InPattern m) ->
  which complaint_templates (complaint_text opname pattern shapes shape c) = Some (of_complaint c).
Proof.
  intros Hi Hm. destruct c as [| |x|i s least|s| |n|m|s|s|s|s|s| | | | | | | | |x]; try reflexivity; try (exfalso; exact (Hm _ eq_refl)).
  all: exfalso; vm_compute in Hi; repeat (destruct Hi as [Hi|Hi]; [discriminate|]); exact Hi.
Qed.

(** ** literals *)
Lemma hex_digit_value d : (d < 16)%N -> hex_value (hex_digit d) = d.
Proof.
  intros H. unfold hex_digit, hex_value. destruct (d <? 10)%N eqn:E.
  - apply N.ltb_lt in E. rewrite (proj2 (N.ltb_lt _ _)) by lia. lia.
  - apply N.ltb_ge in E. rewrite (proj2 (N.ltb_ge _ _)) by lia. lia.
Qed.
Lemma hex_numbers w : forall c, (c < 16 ^ N.of_nat w)%N -> hex_number (hex w c) = c.
Proof.
  induction w as [|w IH]; intros c H; [cbn in H |- *; lia|].
  cbn [hex]. unfold hex_number in *. rewrite fold_left_app. cbn [fold_left]. rewrite IH.
  - rewrite hex_digit_value by (apply N.mod_lt; discriminate). pose proof (N.div_mod c 16). lia.
  - rewrite Nat2N.inj_succ, N.pow_succ_r' in H. apply N.div_lt_upper_bound; lia.
Qed.
Lemma escape_read printable q c t : (q = 39 \/ q = 34)%N -> (c < 1114112)%N -> literal_body q (escape printable q c ++ t) = put_first c (literal_body q t).
Proof.
  intros Hq Hc. unfold escape, c_back.
  assert (Q : (92 =? q)%N = false) by (apply N.eqb_neq; lia).
  assert (X : forall l d, (c < 16 ^ N.of_nat (length l))%N -> hex_number l = c -> (d, length l) = (120%N, 2) \/ (d, length l) = (117%N, 4) \/ (d, length l) = (85%N, 8) ->
    literal_body q ((92%N :: d :: l) ++ t) = put_first c (literal_body q t)).
  { intros l d _ El D. cbn [app literal_body]. rewrite Q. cbn [N.eqb Pos.eqb].
    destruct D as [D|[D|D]]; injection D as -> D; cbn [N.eqb Pos.eqb orb];
      repeat (destruct l as [|? l]; [discriminate D|injection D as D]); destruct l; try discriminate D; cbn [app]; rewrite El; reflexivity. }
  destruct ((c =? q)%N || (c =? 92)%N) eqn:E1.
  { cbn [app literal_body]. rewrite Q. cbn [N.eqb Pos.eqb]. apply orb_true_iff in E1 as [E1|E1]; apply N.eqb_eq in E1; subst c; [destruct Hq as [-> | ->]|]; reflexivity. }
  apply orb_false_iff in E1 as [E1 E2].
  assert (P : (c =? 10)%N = false -> (c =? 13)%N = false -> literal_body q ([c] ++ t) = put_first c (literal_body q t)).
  { intros A B. cbn [app literal_body]. rewrite E1, E2, A, B. reflexivity. }
  destruct (c =? 9)%N eqn:E3; [apply N.eqb_eq in E3; subst c; cbn -[literal_body]; cbn [literal_body]; rewrite Q; reflexivity|].
  destruct (c =? 10)%N eqn:E4; [apply N.eqb_eq in E4; subst c; cbn -[literal_body]; cbn [literal_body]; rewrite Q; reflexivity|].
  destruct (c =? 13)%N eqn:E5; [apply N.eqb_eq in E5; subst c; cbn -[literal_body]; cbn [literal_body]; rewrite Q; reflexivity|].
  destruct ((c <? 32)%N || (c =? 127)%N) eqn:E6.
  { assert (c < 256)%N by (apply orb_true_iff in E6 as [E6|E6]; [apply N.ltb_lt in E6|apply N.eqb_eq in E6]; lia).
    apply (X (hex 2 c)); [exact H|apply hex_numbers; exact H|auto]. }
  destruct (c <? 127)%N; [auto|]. destruct (printable c); [auto|].
  destruct (c <? 256)%N eqn:E7; [apply N.ltb_lt in E7; apply (X (hex 2 c)); [exact E7|apply hex_numbers; exact E7|auto]|].
  destruct (c <? 65536)%N eqn:E8; [apply N.ltb_lt in E8; apply (X (hex 4 c)); [exact E8|apply hex_numbers; exact E8|auto]|].
  assert (c < 4294967296)%N by lia. apply (X (hex 8 c)); [exact H|apply hex_numbers; exact H|auto].
Qed.
Lemma body_read printable q s t : (q = 39 \/ q = 34)%N -> code_points s -> literal_body q (flat_map (escape printable q) s ++ q :: t) = Some (s, t).
Proof.
  intros Hq. induction s as [|c s IH]; intros Hs; cbn [flat_map app].
  - cbn [literal_body]. rewrite N.eqb_refl. reflexivity.
  - rewrite <- app_assoc, escape_read; [|exact Hq|apply Hs; left; reflexivity]. rewrite IH; [reflexivity|]. intros d Hd. apply Hs. right. exact Hd.
Qed.
Lemma repr_read printable s t : code_points s -> read_literal (str_repr printable s ++ t) = Some (s, t).
Proof.
  intros Hs. unfold str_repr, c_quote, c_quotes.
  set (q := if _ && _ then _ else _). assert (Hq : (q = 39 \/ q = 34)%N) by (unfold q; destruct (_ && _); auto).
  cbn [app read_literal]. replace ((q =? 39)%N || (q =? 34)%N) with true by (destruct Hq as [-> | ->]; reflexivity).
  rewrite <- app_assoc. cbn [app]. apply body_read; assumption.
Qed.

(** ** numbers *)
Definition no_digit (t : pystr) : Prop := forall c r, t = c :: r -> ascii_digit c = false.
Lemma digits_front l t : (forall c, In c l -> ascii_digit c = true) -> no_digit t -> digits_of (l ++ t) = (l, t).
Proof.
  intros Hl Ht. induction l as [|c l IH]; cbn [app].
  - destruct t as [|c t]; [reflexivity|]. cbn [digits_of]. rewrite (Ht c t eq_refl). reflexivity.
  - cbn [digits_of]. rewrite (Hl c (or_introl eq_refl)), IH; [reflexivity|]. intros d Hd. apply Hl. right. exact Hd.
Qed.
Lemma number_read z t : no_digit t -> read_number (str_of_int z ++ t) = (z, t).
Proof.
  intros Ht. pose proof (int_numeral z) as H. destruct H as [l (N & D & _)|l (N & D & _) _].
  - destruct l as [|c l]; [contradiction|]. cbn [app read_number].
    replace (c =? 45)%N with false.
    + change (c :: l ++ t) with ((c :: l) ++ t). rewrite digits_front by assumption. reflexivity.
    + symmetry. apply N.eqb_neq. pose proof (digit_range c (D c (or_introl eq_refl))). lia.
  - cbn [lit app read_number]. change (lit "-") with [45%N]. cbn [app read_number N.eqb Pos.eqb]. rewrite digits_front by assumption. reflexivity.
Qed.
Lemma nat_value d : forall a, Z.of_nat (Nat.of_uint_acc d a) = fold_left dstep (uint_codes d) (Z.of_nat a).
Proof.
  induction d; intros a; cbn [Nat.of_uint_acc uint_codes fold_left]; [reflexivity|..]; rewrite IHd; f_equal; unfold dstep; rewrite Nat.tail_mul_spec; lia.
Qed.
Lemma nat_read n t : no_digit t -> read_number (str_of_nat n ++ t) = (Z.of_nat n, t).
Proof.
  intros Ht. destruct (nat_first n) as (c & r & E & D).
  assert (V : digits_value (str_of_nat n) = Z.of_nat n).
  { rewrite <- (DecimalNat.Unsigned.of_to n) at 2. unfold Nat.of_uint. rewrite nat_value. reflexivity. }
  assert (A : forall d, In d (str_of_nat n) -> ascii_digit d = true) by (intros d; apply codes_digit).
  rewrite <- V. rewrite E in *. cbn [app read_number]. replace (c =? 45)%N with false.
  - change (c :: r ++ t) with ((c :: r) ++ t). rewrite digits_front by assumption. reflexivity.
  - symmetry. apply N.eqb_neq. apply digit_range in D. lia.
Qed.

(** ** sets and dicts *)
Lemma starts_refl p t : starts p (p ++ t) = true.
Proof. induction p as [|c p IH]; cbn; [reflexivity|]. rewrite N.eqb_refl. exact IH. Qed.
Section Braces.
  Context (V A : Type) (read : pystr -> option (V * pystr)) (text : A -> pystr) (back : A -> V).
  Definition good_end (t : pystr) : Prop := exists r, t = lit "}" ++ r \/ t = lit ", " ++ r.
  Context (Hread : forall a t, good_end t -> read (text a ++ t) = Some (back a, t)).
  Lemma entries_read l : forall n t, l <> [] -> length l <= n ->
    read_entries read n (join (lit ", ") (map text l) ++ lit "}" ++ t) = Some (map back l, t).
  Proof.
    induction l as [|a l IH]; intros n t Hl Hn; [contradiction|]. destruct n as [|n]; [cbn in Hn; lia|]. cbn [length] in Hn.
    destruct l as [|b l].
    - cbn [map join read_entries]. rewrite Hread by (exists t; auto). rewrite starts_refl. reflexivity.
    - change (join (lit ", ") (map text (a :: b :: l))) with (text a ++ lit ", " ++ join (lit ", ") (map text (b :: l))).
      rewrite <- !app_assoc. cbn [read_entries]. rewrite Hread by (eexists; right; reflexivity).
      replace (starts (lit "}") (lit ", " ++ join (lit ", ") (map text (b :: l)) ++ lit "}" ++ t)) with false by reflexivity.
      rewrite starts_refl. change (skipn 2 (lit ", " ++ join (lit ", ") (map text (b :: l)) ++ lit "}" ++ t)) with (join (lit ", ") (map text (b :: l)) ++ lit "}" ++ t).
      rewrite IH; [reflexivity|discriminate|lia].
  Qed.
  Context (Htext : forall a, exists c r, text a = c :: r /\ c <> 125%N).
  Lemma texts_long l : length l <= length (join (lit ", ") (map text l)).
  Proof.
    induction l as [|a l IH]; [cbn; lia|]. destruct (Htext a) as (c & r & E & _). destruct l as [|b l]; [cbn; rewrite E; cbn; lia|].
    change (join (lit ", ") (map text (a :: b :: l))) with (text a ++ lit ", " ++ join (lit ", ") (map text (b :: l))).
    rewrite !app_length, E. cbn [length] in *. lia.
  Qed.
  Lemma braces_read l t : read_braces read (lit "{" ++ join (lit ", ") (map text l) ++ lit "}" ++ t) = Some (map back l, t).
  Proof.
    destruct l as [|a l]; [reflexivity|]. unfold read_braces.
    replace (starts (lit "{}") (lit "{" ++ join (lit ", ") (map text (a :: l)) ++ lit "}" ++ t)) with false.
    - rewrite starts_refl. change (skipn 1 (lit "{" ++ join (lit ", ") (map text (a :: l)) ++ lit "}" ++ t)) with (join (lit ", ") (map text (a :: l)) ++ lit "}" ++ t).
      apply entries_read; [discriminate|]. pose proof (texts_long (a :: l)). rewrite !app_length. lia.
    - destruct (Htext a) as (c & r & E & Hc).
      assert (J : exists r', join (lit ", ") (map text (a :: l)) = c :: r') by (destruct l; cbn [map join]; rewrite E; eexists; reflexivity).
      destruct J as [r' J]. rewrite J. cbn -[N.eqb]. replace (125 =? c)%N with false; [reflexivity|]. symmetry. apply N.eqb_neq. congruence.
  Qed.
End Braces.
Lemma good_no_digit t : good_end t -> no_digit t.
Proof. intros [r [-> | ->]] c r' E; injection E as <- _; reflexivity. Qed.
Lemma literal_first t : read_literal t <> None -> exists c r, t = c :: r /\ (c = 39 \/ c = 34)%N.
Proof.
  destruct t as [|c t]; [intros H; contradiction|]. cbn [read_literal]. destruct (c =? 39)%N eqn:E1; [apply N.eqb_eq in E1; eauto|].
  destruct (c =? 34)%N eqn:E2; [apply N.eqb_eq in E2; eauto|]. intros H. contradiction.
Qed.
Lemma repr_first printable s : exists c r, str_repr printable s = c :: r /\ (c = 39 \/ c = 34)%N.
Proof. unfold str_repr. eexists _, _. split; [reflexivity|]. destruct (_ && _); auto. Qed.
Definition axis_points (a : axis) : Prop := match a with AxName s => code_points s | AxAnon _ _ => True end.
Lemma axis_read printable a t : axis_points a -> read_axis (axis_repr printable a ++ t) = Some (shown a, t).
Proof.
  destruct a as [s|i v]; intros H; unfold read_axis; cbn [axis_repr].
  - rewrite repr_read by exact H. reflexivity.
  - rewrite <- !app_assoc. destruct (int_first v) as (c & r & E & D).
    replace (read_literal (str_of_int v ++ lit "-axis" ++ t)) with (@None (pystr * pystr)).
    + rewrite number_read; [rewrite starts_refl; reflexivity|]. intros d r' X. injection X as <- _. reflexivity.
    + rewrite E. cbn [app read_literal]. replace ((c =? 39)%N || (c =? 34)%N) with false; [reflexivity|].
      destruct D as [->|D]; [reflexivity|]. apply digit_range in D. symmetry. apply orb_false_iff. split; apply N.eqb_neq; lia.
Qed.
Lemma set_read printable l t : (forall a, In a l -> axis_points a) -> read_braces read_axis (set_text printable l ++ t) = Some (map shown l, t).
Proof.
  intros H. unfold set_text. rewrite <- !app_assoc.
  set (text (a : {x | axis_points x}) := axis_repr printable (proj1_sig a)).
  assert (X : exists l' : list {x | axis_points x}, map (@proj1_sig _ _) l' = l).
  { clear -H. induction l as [|a l IH]; [exists []; reflexivity|]. destruct IH as [l' E]; [intros; apply H; right; assumption|].
    exists (exist axis_points a (H a (or_introl eq_refl)) :: l'). cbn. rewrite E. reflexivity. }
  destruct X as [l' <-]. rewrite !map_map. apply (braces_read _ _ _ text).
  - intros a u _. apply axis_read. exact (proj2_sig a).
  - intros [[s|i v] Ha]; unfold text; cbn [proj1_sig axis_repr].
    + destruct (repr_first printable s) as (c & r & -> & D). exists c, r. split; [reflexivity|]. destruct D as [-> | ->]; discriminate.
    + destruct (int_first v) as (c & r & -> & D). eexists _, _. split; [reflexivity|]. destruct D as [->|D]; [discriminate|]. apply digit_range in D. lia.
Qed.
Lemma entry_read printable k v t : code_points k -> no_digit t -> read_entry (str_repr printable k ++ lit ": " ++ str_of_int v ++ t) = Some ((k, v), t).
Proof.
  intros Hk Ht. unfold read_entry. rewrite repr_read by exact Hk. rewrite starts_refl.
  change (skipn 2 (lit ": " ++ str_of_int v ++ t)) with (str_of_int v ++ t). rewrite number_read by exact Ht. reflexivity.
Qed.
Lemma dict_read printable sizes t : (forall k v, In (k, v) sizes -> code_points k) ->
  read_braces read_entry (dict_text printable str_of_int sizes ++ t) = Some (sizes, t).
Proof.
  intros H. unfold dict_text. rewrite <- !app_assoc.
  set (text (e : {x : pystr * Z | code_points (fst x)}) := str_repr printable (fst (proj1_sig e)) ++ lit ": " ++ str_of_int (snd (proj1_sig e))).
  assert (X : exists l' : list {x : pystr * Z | code_points (fst x)}, map (@proj1_sig _ _) l' = sizes).
  { clear -H. induction sizes as [|[k v] l IH]; [exists []; reflexivity|]. destruct IH as [l' E]; [intros; eapply H; right; eassumption|].
    exists (exist (fun x => code_points (fst x)) (k, v) (H k v (or_introl eq_refl)) :: l'). cbn. rewrite E. reflexivity. }
  destruct X as [l' <-]. rewrite map_map.
  replace (map (fun x => let '(k, v) := proj1_sig x in str_repr printable k ++ lit ": " ++ str_of_int v) l') with (map text l')
    by (apply map_ext; intros [[k v] Hk]; reflexivity).
  apply (braces_read _ _ _ text).
  - intros [[k v] Hk] u Hu. unfold text. cbn [proj1_sig fst snd]. rewrite <- !app_assoc. apply entry_read; [exact Hk|apply good_no_digit; exact Hu].
  - intros [[k v] Hk]. unfold text. cbn [proj1_sig fst snd]. destruct (repr_first printable k) as (c & r & -> & D). eexists _, _. split; [reflexivity|]. destruct D as [-> | ->]; discriminate.
Qed.

(** ** different mistakes have different texts *)
Lemma set_inj printable l l' t t' : (forall s, In (AxName s) l -> code_points s) -> (forall s, In (AxName s) l' -> code_points s) ->
  set_text printable l ++ t = set_text printable l' ++ t' -> map shown l = map shown l' /\ t = t'.
Proof.
  assert (G : forall k, (forall s, In (AxName s) k -> code_points s) -> forall a, In a k -> axis_points a) by (intros k Hk [s|i v] Ha; [apply Hk; exact Ha|exact I]).
  intros H H' E. apply (f_equal (read_braces read_axis)) in E. rewrite !set_read in E by (apply G; assumption). injection E as E1 E2. auto.
Qed.
Lemma int_inj a b t u : no_digit t -> no_digit u -> str_of_int a ++ t = str_of_int b ++ u -> a = b /\ t = u.
Proof. intros Ht Hu E. apply (f_equal read_number) in E. rewrite !number_read in E by assumption. injection E as E1 E2. auto. Qed.
Lemma nat_inj a b t u : no_digit t -> no_digit u -> str_of_nat a ++ t = str_of_nat b ++ u -> a = b /\ t = u.
Proof. intros Ht Hu E. apply (f_equal read_number) in E. rewrite !nat_read in E by assumption. injection E as E1 E2. split; [lia|exact E2]. Qed.
Lemma nothing_no_digit : no_digit [].
Proof. intros c r H. discriminate. Qed.
Lemma reduction_words s s' t t' : In s reductions -> In s' reductions -> s ++ lit ": " ++ t = s' ++ lit ": " ++ t' -> s = s' /\ t = t'.
Proof.
  intros H H' E. cbn in H, H'.
  repeat (destruct H as [<-|H]; [repeat (destruct H' as [<-|H']; [first [discriminate E|injection E as E; subst; auto]|]); contradiction|]). contradiction.
Qed.
Lemma texts_differ printable callable foreign m m' : plain m -> plain m' -> mistake_text printable callable foreign m = mistake_text printable callable foreign m' ->
  of_mistake m = of_mistake m' /\ details m = details m'.
Proof.
  intros P P' E.
  assert (F : m <> Foreign) by (intros ->; exact P). assert (F' : m' <> Foreign) by (intros ->; exact P').
  assert (K : of_mistake m = of_mistake m'). { pose proof (mistake_kind printable callable foreign m F) as X. rewrite E, mistake_kind in X by exact F'. congruence. }
  split; [exact K|].
  destruct m as [v| | |x|x w| | |c|s|p|p| |l|l|l|op l|op|a b|a b|x|x|l|a b|a b|];
  destruct m' as [v'| | |x'|x' w'| | |c'|s'|p'|p'| |l'|l'|l'|op' l'|op'|a' b'|a' b'|x'|x'|l'|a' b'|a' b'|];
  first [discriminate K|reflexivity|idtac]; clear K F F'; cbn [plain details] in *; unfold mistake_text in E; apply app_inv_head in E.
  all: try (destruct (set_inj printable l l' [] []) as [-> _]; [assumption|assumption|rewrite !app_nil_r; exact E|reflexivity]).
  all: try (unfold quoted in E; rewrite ?app_assoc in E; apply app_inv_tail in E; rewrite <- ?app_assoc in E; try (apply app_inv_head in E); subst; reflexivity).
  all: try (subst; reflexivity).
  - destruct (int_inj v v' [] []) as [-> _]; auto using nothing_no_digit. rewrite !app_nil_r. exact E.
  - destruct w, w'; first [apply app_inv_tail in E; subst; reflexivity|exfalso; apply (f_equal (@rev N)) in E; rewrite !rev_app_distr in E; discriminate E].
  - injection E as ->. reflexivity.
  - destruct op as [s|], op' as [s'|]; try contradiction. destruct P as [S P], P' as [S' P']. destruct (reduction_words s s' _ _ S S' E) as [-> E'].
    destruct (set_inj printable l l' [] []) as [-> _]; [assumption|assumption|rewrite !app_nil_r; exact E'|reflexivity].
  - destruct op as [s|], op' as [s'|]; try contradiction. apply app_inv_tail in E. cbn in E. subst. reflexivity.
  - apply nat_inj in E as [-> E]; [|intros c r X; injection X as <- _; reflexivity..]. apply app_inv_head in E.
    apply nat_inj in E as [-> _]; [reflexivity|intros c r X; injection X as <- _; reflexivity..].
  - apply nat_inj in E as [-> E]; [|intros c r X; injection X as <- _; reflexivity..]. apply app_inv_head in E.
    apply nat_inj in E as [-> _]; [reflexivity|intros c r X; injection X as <- _; reflexivity..].
  - assert (R : read_literal (str_repr printable x ++ lit ")") = read_literal (str_repr printable x' ++ lit ")")) by (rewrite E; reflexivity).
    rewrite !repr_read in R by assumption. injection R as ->. reflexivity.
  - apply int_inj in E as [-> E]; [|intros c r X; injection X as <- _; reflexivity..]. apply app_inv_head in E.
    destruct (int_inj b b' [] []) as [-> _]; auto using nothing_no_digit. rewrite !app_nil_r. exact E.
  - apply int_inj in E as [-> E]; [|intros c r X; injection X as <- _; reflexivity..]. apply app_inv_head in E.
    destruct (int_inj b b' [] []) as [-> _]; auto using nothing_no_digit. rewrite !app_nil_r. exact E.
Qed.

Lemma quotes printable s : exists q body, str_repr printable s = q :: body ++ [q] /\ (q = 34%N <-> In 39%N s /\ ~ In 34%N s) /\ (q = 39%N <-> ~ In 39%N s \/ In 34%N s).
Proof.
  assert (H : forall c, has_char c s = true <-> In c s).
  { intros c. unfold has_char. rewrite existsb_exists. split; [intros (d & Hd & E); apply N.eqb_eq in E; subst; exact Hd|intros Hc; exists c; split; [exact Hc|apply N.eqb_refl]]. }
  unfold str_repr, c_quote, c_quotes. eexists _, _. split; [reflexivity|].
  pose proof (H 39%N) as H1. pose proof (H 34%N) as H2.
  destruct (has_char 39 s), (has_char 34 s); cbn [andb negb]; intuition (try discriminate).
Qed.
