(** * einsum computes the formula; a library that keeps the contract *)
From Coq Require Import Permutation.
From Verif Require Import Py Tensor Parsing Recipe Ops SpecSem SpecGrammar SpecForms Compile ListFacts TensorFacts StepFacts FrontFacts FrontFacts2 SpecEinsum Einsum EinsumFacts EinsumFacts2 EinsumFacts3.

Lemma letters_NoDup : NoDup letters.
Proof.
  assert (G : forall l : list N, (fix nd l := match l with [] => true | x :: r => negb (existsb (N.eqb x) r) && nd r end) l = true -> NoDup l).
  { induction l as [|x l IH]; intros H; constructor; apply andb_true_iff in H as [H1 H2].
    - intros Hi. apply negb_true_iff in H1. assert (existsb (N.eqb x) l = true) by (apply existsb_exists; exists x; split; [exact Hi|apply N.eqb_refl]). congruence.
    - apply IH, H2. }
  apply G. vm_compute. reflexivity.
Qed.

Lemma distinct_In l x : In x (distinct l) <-> In x l.
Proof. rewrite distinct_add, add_names_In. cbn. tauto. Qed.
Lemma distinct_NoDup l : NoDup (distinct l).
Proof. rewrite distinct_add. apply add_names_NoDup. constructor. Qed.

(** the letters can be read back *)
Definition name_of (ns : list pystr) (c : N) : pystr := match index_of N.eqb c letters with Some k => nth k ns [] | None => [] end.

Lemma letter_of_index ns s : In s ns -> exists k, nth_error ns k = Some s /\ index_of str_eqb s ns = Some k.
Proof.
  intros H. destruct (index_of_In str_eqb str_eqb_eq' s ns H) as [k E]. exists k. split; [|exact E]. apply (index_of_Some str_eqb str_eqb_eq'). exact E.
Qed.
Lemma letter_of_in ns s : length ns <= 52 -> In s ns -> In (letter_of ns s) letters.
Proof.
  intros Hl H. destruct (letter_of_index ns s H) as (k & En & Ek). unfold letter_of. rewrite Ek. apply nth_In. rewrite letters_len.
  assert (k < length ns) by (apply nth_error_Some; congruence). lia.
Qed.
Lemma name_letter ns s : length ns <= 52 -> In s ns -> name_of ns (letter_of ns s) = s.
Proof.
  intros Hl H. destruct (letter_of_index ns s H) as (k & En & Ek). unfold letter_of. rewrite Ek. unfold name_of.
  assert (Hk : k < length ns) by (apply nth_error_Some; congruence).
  rewrite (index_of_nth N.eqb N.eqb_eq letters k (nth k letters 0%N) letters_NoDup) by (apply nth_error_nth'; rewrite letters_len; lia).
  apply nth_error_nth. exact En.
Qed.

Lemma short_compact f es : short f es = compact_term (map_term f (to_term es)).
Proof.
  induction es as [|x es IH]; [reflexivity|].
  change (short f (x :: es)) with (short_entry f x ++ short f es). rewrite IH. destruct x; reflexivity.
Qed.
Lemma short_pattern_compact f Ls R : short_pattern f Ls R = compact_pattern (map (map_term f) (map to_term Ls)) (map_term f (to_term R)).
Proof.
  unfold short_pattern, compact_pattern. rewrite short_compact, !map_map. do 2 f_equal. apply map_ext. intros es. apply short_compact.
Qed.
Lemma to_term_names es : term_names (to_term es) = entry_names es.
Proof. induction es as [|[s|] es IH]; cbn; [reflexivity| |exact IH]. f_equal. exact IH. Qed.
Lemma to_terms_names Ls : flat_map term_names (map to_term Ls) = all_names Ls.
Proof. induction Ls as [|L Ls IH]; [reflexivity|]. cbn [map flat_map]. rewrite to_term_names, IH. reflexivity. Qed.

Section Main.
  Context {A : Type} (U : unicode) (HU : unicode_ok U) (add mul : A -> A -> A) (zero one : A).
  Context (add_comm : forall a b, add a b = add b a) (add_assoc : forall a b c, add a (add b c) = add (add a b) c).
  Context (lib : pystr -> list (tensor A) -> result (tensor A)).

  Lemma einsum_args (xs : list (tensor A)) pattern : xs <> [] ->
    einsum_with U lib (map inl xs ++ [inr pattern]) = let* c := compactify U pattern in lib c xs.
  Proof.
    intros Hn. unfold einsum_with, einsum_given. rewrite app_length, map_length.
    destruct xs as [|x xs]; [congruence|]. cbn [length].
    replace (S (length xs) + 1 <=? 1) with false by (symmetry; apply Nat.leb_gt; lia). cbn [raise_if bind].
    rewrite last_last, removelast_last. destruct (compactify U pattern) as [c|]; cbn [bind]; [|reflexivity].
    assert (E : mapM (@as_tensor (tensor A)) (map inl (x :: xs)) = Ok (x :: xs)).
    { generalize (x :: xs). induction l as [|y l IH]; [reflexivity|]. cbn. cbn in IH. rewrite IH. reflexivity. }
    cbn [map] in E |- *. rewrite E. reflexivity.
  Qed.

  Theorem einsum_formula pattern Ls R xs len :
    einsum_contract add mul zero one lib -> einsum_reads U pattern Ls R -> length (distinct (all_names Ls)) <= 52 ->
    good_call len (map to_term Ls) (to_term R) xs ->
    exists y, einsum_with U lib (map inl xs ++ [inr pattern]) = Ok y /\
      forall ms, summed (map to_term Ls) (to_term R) xs ms -> is_einsum str_eqb add mul zero one len (map to_term Ls) (to_term R) xs ms y.
  Proof.
    intros HC Hr Hl Hg.
    assert (HT : Ls <> []).
    { destruct Hr as (ls & r & _ & Hn & HF & _). destruct ls; [congruence|]. inversion HF; subst. discriminate. }
    assert (Hinc : incl (entry_names R) (all_names Ls)).
    { destruct Hg as (_ & _ & Hi & _). rewrite to_term_names, to_terms_names in Hi. exact Hi. }
    set (ns := distinct (all_names Ls)) in *. assert (Hc : compactify U pattern = Ok (short_pattern (letter_of ns) Ls R)).
    { apply (compactify_iff U HU). exists Ls, R. auto. }
    assert (Hinv : forall a, In a (flat_map term_names (map to_term Ls)) -> name_of ns (letter_of ns a) = a).
    { intros a Ha. rewrite to_terms_names in Ha. apply name_letter; [exact Hl|]. apply distinct_In. exact Ha. }
    assert (Hg' := good_rename (letter_of ns) (name_of ns) (map to_term Ls) (to_term R) xs len Hg Hinv).
    assert (H1 : map (map_term (letter_of ns)) (map to_term Ls) <> []) by (destruct Ls; [congruence|discriminate]).
    assert (H2 : incl (flat_map term_names (map (map_term (letter_of ns)) (map to_term Ls))) letters).
    { intros c H. apply in_flat_map in H as (t & Ht & Hc'). apply in_map_iff in Ht as (t0 & <- & Ht0).
      rewrite map_term_names in Hc'. apply in_map_iff in Hc' as (s & <- & Hs). apply letter_of_in; [exact Hl|].
      apply distinct_In. rewrite <- to_terms_names. apply in_flat_map. eauto. }
    destruct (HC _ _ _ _ H1 H2 Hg') as (y & ms' & E & Hs' & Hy).
    exists y. split.
    - rewrite einsum_args.
      + rewrite Hc. cbn [bind]. rewrite short_pattern_compact. exact E.
      + intros ->. destruct Hg as (HF & _). inversion HF as [E1|]. destruct Ls; [congruence|discriminate].
    - intros ms Hms. eapply (is_einsum_rename str_eqb N.eqb str_eqb_eq' N.eqb_eq add mul zero one add_comm add_assoc (letter_of ns) (name_of ns)); eauto.
  Qed.
End Main.

(** ** A library that keeps the contract *)
Section Reference.
  Context {A : Type} (add mul : A -> A -> A) (zero one : A).

  Definition c_dot : N := 46.
  Fixpoint dec_term (s : pystr) : term (X := N) :=
    match s with
    | [] => []
    | c :: s1 => if existsb (N.eqb c) letters then Some c :: dec_term s1
                 else match s1 with _ :: _ :: s3 => None :: dec_term s3 | _ => [] end
    end.
  Lemma dec_compact t : incl (term_names t) letters -> dec_term (compact_term t) = t.
  Proof.
    induction t as [|[c|] t IH]; intros H; [reflexivity| |].
    - cbn [compact_term flat_map app dec_term]. rewrite (proj2 (existsb_exists (N.eqb c) letters)).
      + f_equal. apply IH. intros x Hx. apply H. right. exact Hx.
      + exists c. split; [apply H; left; reflexivity|apply N.eqb_refl].
    - change (compact_term (None :: t)) with (c_dot :: c_dot :: c_dot :: compact_term t). cbn [dec_term].
      replace (existsb (N.eqb c_dot) letters) with false by reflexivity. f_equal. apply IH. exact H.
  Qed.

  Definition decode (c : pystr) : result (list (term (X := N)) * term (X := N)) :=
    match str_split s_arrow c with
    | [l; r] => Ok (map dec_term (str_split s_comma l), dec_term r)
    | _ => Err BackendError
    end.
  Lemma compact_chars t c : incl (term_names t) letters -> In c (compact_term t) -> In c letters \/ c = c_dot.
  Proof.
    induction t as [|[a|] t IH]; intros H Hc; [destruct Hc| |].
    - destruct Hc as [<-|Hc]; [left; apply H; left; reflexivity|]. apply IH; [intros x Hx; apply H; right; exact Hx|exact Hc].
    - change (compact_term (None :: t)) with (c_dot :: c_dot :: c_dot :: compact_term t) in Hc.
      destruct Hc as [<-|[<-|[<-|Hc]]]; auto.
  Qed.
  Lemma no_char c : existsb (N.eqb c) letters = false -> c <> c_dot -> forall t, incl (term_names t) letters -> ~ In c (compact_term t).
  Proof.
    intros H1 H2 t Ht Hc. apply compact_chars in Hc as [Hc|Hc]; [|contradiction|exact Ht].
    assert (existsb (N.eqb c) letters = true) by (apply existsb_exists; exists c; split; [exact Hc|apply N.eqb_refl]). congruence.
  Qed.
  Lemma decode_compact Ts R : Ts <> [] -> incl (flat_map term_names Ts) letters -> incl (term_names R) letters -> decode (compact_pattern Ts R) = Ok (Ts, R).
  Proof.
    intros Hn HT HR. unfold decode, compact_pattern. change (lit "->") with s_arrow. change (lit ",") with s_comma.
    assert (H1 : forall t, In t Ts -> incl (term_names t) letters) by (intros t Ht x Hx; apply HT; apply in_flat_map; eauto).
    rewrite split_one_arrow.
    - rewrite split_free by (apply no_minus_free; apply no_char; [reflexivity|discriminate|exact HR]).
      assert (E : str_split s_comma (str_join s_comma (map compact_term Ts)) = map compact_term Ts).
      { apply split_char. split; [reflexivity|]. split; [destruct Ts; [congruence|discriminate]|].
        apply Forall_forall. intros s Hs. apply in_map_iff in Hs as (t & <- & Ht). apply no_char; [reflexivity|discriminate|apply H1, Ht]. }
      rewrite E, map_map, dec_compact by exact HR. do 2 f_equal.
      rewrite <- (map_id Ts) at 2. apply map_ext_in. intros t Ht. apply dec_compact, H1, Ht.
    - apply no_minus_free. apply join_free; [discriminate|]. apply Forall_forall. intros s Hs. apply in_map_iff in Hs as (t & <- & Ht).
      apply no_char; [reflexivity|discriminate|apply H1, Ht].
  Qed.

  (** lengths of the labels: the first dimension that is not 1 *)
  Definition dims_of (Ts : list (term (X := N))) (xs : list (tensor A)) : list (lab N * nat) :=
    concat (map2 (fun t x => combine (operand_labs t x) (shp x)) Ts xs).
  Definition find_len (ds : list (lab N * nat)) (l : lab N) : nat :=
    match find (fun p => lab_eqb N.eqb l (fst p) && negb (snd p =? 1)) ds with Some (_, d) => d | None => 1 end.

  Definition lab_dec (l m : lab N) : {l = m} + {l <> m}.
  Proof. decide equality; [apply N.eq_dec|apply Nat.eq_dec]. Defined.

  Definition ref_value (len : lab N -> nat) (ms out : list (lab N)) Ts xs (idx : list nat) : A :=
    fold_right add zero (map (fun v => product_at mul zero one (assign (lab_eqb N.eqb) (assign (lab_eqb N.eqb) (fun _ => 0) out idx) ms v) Ts xs) (indices (map len ms))).
  Definition ref_einsum (c : pystr) (xs : list (tensor A)) : result (tensor A) :=
    let* (Ts, R) := decode c in
    let len := find_len (dims_of Ts xs) in
    let out := out_labs Ts xs R in
    let ms := nodup lab_dec (filter (fun l => negb (existsb (lab_eqb N.eqb l) out)) (all_labs Ts xs)) in
    Ok (mkT (map len out) (map (ref_value len ms out Ts xs) (indices (map len out)))).

  Lemma N_lab_eq : forall l m : lab N, lab_eqb N.eqb l m = true <-> l = m.
  Proof. apply lab_eqb_eq. apply N.eqb_eq. Qed.

  Lemma dims_in Ts : forall (xs : list (tensor A)) l d, In (l, d) (dims_of Ts xs) <-> exists t x, In (t, x) (combine Ts xs) /\ In (l, d) (combine (operand_labs t x) (shp x)).
  Proof.
    unfold dims_of. induction Ts as [|t Ts IH]; intros [|x xs] l d; cbn.
    - split; [intros []|intros (? & ? & [] & _)].
    - split; [intros []|intros (? & ? & [] & _)].
    - split; [intros []|intros (? & ? & [] & _)].
    - rewrite in_app_iff, IH. split.
      + intros [H|(t' & x' & H1 & H2)]; [exists t, x; auto|exists t', x'; auto].
      + intros (t' & x' & [H|H] & H2); [injection H as -> ->; auto|right; exists t', x'; auto].
  Qed.

  Lemma Forall2_combine {B C} (P : B -> C -> Prop) l m b c : Forall2 P l m -> In (b, c) (combine l m) -> P b c.
  Proof. induction 1 as [|x y l m Hxy _ IH]; cbn; [intros []|]. intros [H|H]; [injection H as <- <-; exact Hxy|auto]. Qed.
  Lemma Forall2_combine_l {B C} (P : B -> C -> Prop) l m b : Forall2 P l m -> In b l -> exists c, In (b, c) (combine l m).
  Proof.
    induction 1 as [|x y l m Hxy _ IH]; cbn; [intros []|]. intros [->|H]; [exists y; auto|]. destruct (IH H) as [c Hc]. exists c. auto.
  Qed.

  Section Good.
    Context (len : lab N -> nat) (Ts : list (term (X := N))) (R : term (X := N)) (xs : list (tensor A)) (Hgood : good_call len Ts R xs).

    Lemma dim_value l d : In (l, d) (dims_of Ts xs) -> dim_fits len l d.
    Proof.
      intros H. apply dims_in in H as (t & x & H1 & H2). destruct Hgood as (HF & _). apply (Forall2_combine _ _ _ _ _ HF) in H1 as (_ & _ & H1).
      apply (Forall2_combine _ _ _ _ _ H1 H2).
    Qed.
    (** some dimension with this label has its length *)
    Lemma found l : In (l, len l) (dims_of Ts xs) -> find_len (dims_of Ts xs) l = len l.
    Proof.
      intros H. unfold find_len. destruct (find _ (dims_of Ts xs)) as [[m d]|] eqn:E.
      - apply find_some in E as [Hi Hb]. cbn in Hb. apply andb_true_iff in Hb as [H1 H2]. apply N_lab_eq in H1. subst m.
        apply negb_true_iff, Nat.eqb_neq in H2. apply dim_value in Hi. unfold dim_fits in Hi. destruct l; [exact Hi|]. destruct Hi; [assumption|contradiction].
      - assert (Hn := find_none _ _ E _ H). cbn in Hn. rewrite (proj2 (N_lab_eq l l) eq_refl) in Hn. cbn in Hn.
        apply negb_false_iff, Nat.eqb_eq in Hn. symmetry. exact Hn.
    Qed.
    Lemma operand_of l : In l (all_labs Ts xs) -> exists t x, In (t, x) (combine Ts xs) /\ In l (operand_labs t x).
    Proof.
      clear. unfold all_labs. revert xs. induction Ts as [|t T IH]; intros [|x xs'] H; cbn in H; try contradiction.
      apply in_app_or in H as [H|H]; [exists t, x; split; [left; reflexivity|exact H]|].
      destruct (IH _ H) as (t' & x' & H1 & H2). exists t', x'. split; [right; exact H1|exact H2].
    Qed.
    Lemma all_dim l : In l (all_labs Ts xs) -> exists d, In (l, d) (dims_of Ts xs).
    Proof.
      intros H. apply operand_of in H as (t & x & H1 & H2). destruct Hgood as (HF & _). assert (F := Forall2_combine _ _ _ _ _ HF H1). destruct F as (_ & _ & F).
      destruct (Forall2_combine_l _ _ _ _ F H2) as [d Hd]. exists d. apply dims_in. exists t, x. auto.
    Qed.
    Lemma spare_le t x : In (t, x) (combine Ts xs) -> spare t x <= list_max (map2 spare Ts xs).
    Proof.
      clear. revert xs. induction Ts as [|t' T IH]; intros [|x' xs'] H; cbn in H; try contradiction. cbn [map2]. change (list_max (?a :: ?b)) with (Nat.max a (list_max b)).
      destruct H as [H|H]; [injection H as -> ->; lia|]. apply IH in H. lia.
    Qed.
    Lemma labs_dot e (t : term (X := N)) k : In (LDot k) (term_labs e t) -> k < e.
    Proof.
      intros H. apply in_flat_map in H as ([a|] & _ & H); cbn in H.
      - destruct H as [H|[]]. discriminate.
      - apply in_map_iff in H as (j & E & Hj). injection E as ->. apply in_rev, in_seq in Hj. lia.
    Qed.
    Lemma dot_attained k : k < list_max (map2 spare Ts xs) -> In (LDot k, len (LDot k)) (dims_of Ts xs).
    Proof. intros H. destruct Hgood as (_ & _ & _ & _ & _ & Ha). apply dims_in, Ha, H. Qed.
    Lemma len_found l : In l (all_labs Ts xs) \/ In l (out_labs Ts xs R) -> find_len (dims_of Ts xs) l = len l.
    Proof.
      intros H. apply found. destruct l as [a|k].
      - assert (Ha : In (LName a) (all_labs Ts xs)).
        { destruct H as [H|H]; [exact H|]. apply term_labs_name in H. destruct Hgood as (HF & _ & Hi & _). apply Hi in H.
          apply in_flat_map in H as (t & Ht & Ha). unfold all_labs. clear -HF Ht Ha.
          induction HF as [|t' x T xs' _ _ IH]; [destruct Ht|]. cbn. apply in_or_app. destruct Ht as [->|Ht]; [left; apply term_labs_name; exact Ha|right; auto]. }
        destruct (all_dim _ Ha) as [d Hd]. assert (F := dim_value _ _ Hd). cbn in F. subst d. exact Hd.
      - apply dot_attained. destruct H as [H|H]; [|apply labs_dot in H; exact H].
        apply operand_of in H as (t & x & H1 & H2). apply labs_dot in H2. apply spare_le in H1. lia.
    Qed.
  End Good.

  Theorem ref_einsum_contract : einsum_contract add mul zero one ref_einsum.
  Proof.
    intros len Ts R xs Hn Hl Hg.
    assert (HR : incl (term_names R) letters) by (destruct Hg as (_ & _ & Hi & _); intros c Hc; apply Hl, Hi, Hc).
    unfold ref_einsum. rewrite (decode_compact Ts R Hn Hl HR). cbn [bind].
    set (len' := find_len (dims_of Ts xs)). set (out := out_labs Ts xs R). set (ms := nodup lab_dec _).
    assert (Hs : summed Ts R xs ms).
    { split; [apply NoDup_nodup|]. intros l. unfold ms. rewrite nodup_In, filter_In, negb_true_iff. split; intros [H1 H2]; split; auto.
      - intros Ho. assert (existsb (lab_eqb N.eqb l) out = true) by (apply existsb_exists; exists l; split; [exact Ho|apply N_lab_eq; reflexivity]). congruence.
      - destruct (existsb (lab_eqb N.eqb l) out) eqn:E; [|reflexivity]. apply existsb_exists in E as (m & Hm & E). apply N_lab_eq in E. subst. contradiction. }
    assert (Eo : map len' out = map len out) by (apply map_ext_in; intros l Hl'; apply (len_found len Ts R xs Hg); right; exact Hl').
    assert (Em : map len' ms = map len ms).
    { apply map_ext_in. intros l Hl'. apply (len_found len Ts R xs Hg). left. apply Hs in Hl' as [Hl' _]. exact Hl'. }
    eexists. exists ms. split; [reflexivity|]. split; [exact Hs|]. rewrite Eo. split; [|split].
    - unfold wf. cbn [dat shp]. rewrite map_length, indices_length. reflexivity.
    - reflexivity.
    - fold out. intros ix Hix. unfold get. cbn [shp dat]. apply inb_within in Hix. rewrite Hix.
      erewrite map_nth_error by (apply indices_nth; exact Hix). f_equal. unfold ref_value. rewrite Em. f_equal. apply map_ext. intros v.
      apply product_at_ext. intros l Hl'. destruct (index_of (lab_eqb N.eqb) l ms) as [k|] eqn:Ek.
      + unfold assign at 1 3. rewrite Ek. reflexivity.
      + unfold assign at 1 3. rewrite Ek. apply assign_self; [exact N_lab_eq|].
        apply (index_of_None _ N_lab_eq) in Ek. destruct (in_dec lab_dec l out) as [Ho|Ho]; [exact Ho|]. exfalso. apply Ek. apply Hs. auto.
  Qed.
End Reference.

Lemma letter_injective (Ls : list (list entry)) (s t : pystr) :
  length (distinct (all_names Ls)) <= 52 -> In s (all_names Ls) -> In t (all_names Ls) ->
  let f := letter_of (distinct (all_names Ls)) in
  In (f s) letters /\ (f s = f t -> s = t).
Proof.
  intros Hl Hs Ht f. apply distinct_In in Hs, Ht. split; [apply letter_of_in; assumption|].
  intros E. rewrite <- (name_letter _ s Hl Hs), <- (name_letter _ t Hl Ht). fold f. rewrite E. reflexivity.
Qed.

Lemma einsum_calls {A} (U : unicode) (lib : pystr -> list (tensor A) -> result (tensor A)) :
  (forall args, length args <= 1 -> einsum_with U lib args = Err ValueError) /\
  (forall args x, einsum_with U lib (args ++ [inl x]) = Err ValueError) /\
  (forall args pattern ex, args <> [] -> compactify U pattern = Err ex -> einsum_with U lib (args ++ [inr pattern]) = Err ex) /\
  (forall xs pattern c, xs <> [] -> compactify U pattern = Ok c -> einsum_with U lib (map inl xs ++ [inr pattern]) = lib c xs).
Proof.
  split; [|split; [|split]].
  - intros args H. unfold einsum_with, einsum_given. rewrite (proj2 (Nat.leb_le _ _) H). reflexivity.
  - intros args x. unfold einsum_with, einsum_given. rewrite last_last. destruct (length (args ++ [inl x]) <=? 1); reflexivity.
  - intros args pattern ex Hn E. unfold einsum_with, einsum_given. rewrite last_last, removelast_last, app_length, E. cbn [length].
    destruct args as [|a args]; [congruence|]. replace (length (a :: args) + 1 <=? 1) with false by (symmetry; apply Nat.leb_gt; cbn; lia). reflexivity.
  - intros xs pattern c Hn E. rewrite einsum_args by exact Hn. rewrite E. reflexivity.
Qed.
