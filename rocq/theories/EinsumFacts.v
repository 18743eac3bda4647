(** * Facts about einsum patterns *)
From Verif Require Import Py Tensor Parsing Recipe Ops SpecGrammar SpecForms Compile ListFacts ParseFacts ParseFacts2 ParseFacts3 ParseLaws FrontFacts2 SpecEinsum Einsum.

Lemma str_eqb_eq' a b : str_eqb a b = true <-> a = b.
Proof. unfold str_eqb. destruct (str_eq_dec a b); split; congruence. Qed.
Lemma str_mem_In' x l : str_mem x l = true <-> In x l.
Proof.
  unfold str_mem. rewrite existsb_exists. split.
  - intros [y [Hy E]]. apply str_eqb_eq' in E. subst. exact Hy.
  - intros H. exists x. split; [exact H|]. apply str_eqb_eq'. reflexivity.
Qed.

(** ** what an item becomes *)
Definition entry_result (o : option entry) : result (option pystr) :=
  match o with Some EDots => Ok None | Some (EName s) => Ok (Some s) | None => Err NotImplementedError end.

Lemma einsum_axis_item : forall k i, einsum_axis (item_comp k i) = entry_result (item_entry i).
Proof.
  intros k i. destruct i as [a|l].
  - destruct a as [s|n|]; cbn [item_comp is_ell item_entry].
    + destruct (str_eqb s ell_name); reflexivity.
    + cbn [atom_axes]. destruct (n =? 1)%Z; reflexivity.
    + reflexivity.
  - assert (H : comp_axes (item_comp k (Group l)) = atoms_axes k (content (Group l))) by apply item_axes.
    cbn [item_comp comp_axes] in H. cbn [item_comp]. rewrite H. cbn [item_entry].
    assert (H1 : forall a, In a (content (Group l)) -> is_one a = false).
    { intros a Ha. unfold content in Ha. apply filter_In in Ha as [_ Ha]. destruct (is_one a); [discriminate|reflexivity]. }
    destruct (content (Group l)) as [|a [|b c]].
    + reflexivity.
    + specialize (H1 a (or_introl eq_refl)). destruct a as [s|n|]; cbn [atoms_axes atom_axes app]; try reflexivity.
      cbn in H1. rewrite H1. reflexivity.
    + assert (Ha := H1 a (or_introl eq_refl)). assert (Hb := H1 b (or_intror (or_introl eq_refl))).
      assert (L : exists x y z, atoms_axes k (a :: b :: c) = x :: y :: z).
      { cbn [atoms_axes]. destruct a as [s|n|], b as [s'|n'|]; cbn in Ha, Hb; cbn [atom_axes]; try rewrite Ha; try rewrite Hb; cbn; eauto. }
      destruct L as (x & y & z & ->). destruct x as [?|? ?], a as [?|?|]; reflexivity.
Qed.

(** ** the mapping *)
Definition mapping (ns : list pystr) : list (pystr * N) := combine ns letters.
Lemma letters_eq : ascii_letters = letters.
Proof. reflexivity. Qed.
Lemma letters_len : length letters = 52.
Proof. reflexivity. Qed.
Lemma mapping_len ns : length ns <= 52 -> length (mapping ns) = length ns.
Proof. intros H. unfold mapping. rewrite combine_length, letters_len. lia. Qed.

Lemma combine_get : forall ns (ls : pystr) s, length ns <= length ls ->
  dict_get str_eqb s (combine ns ls) = match index_of str_eqb s ns with Some k => Some (nth k ls 0%N) | None => None end.
Proof.
  intros ns. induction ns as [|n ns IH]; intros ls s H; [reflexivity|]. destruct ls as [|c ls]; [cbn in H; lia|].
  cbn [combine dict_get index_of]. destruct (str_eqb s n); [reflexivity|]. rewrite IH by (cbn in H; lia).
  destruct (index_of str_eqb s ns); reflexivity.
Qed.
Lemma index_of_mem : forall s ns, index_of str_eqb s ns = None <-> str_mem s ns = false.
Proof.
  intros s ns. induction ns as [|n ns IH]; [split; reflexivity|]. cbn. destruct (str_eqb s n); cbn; [split; discriminate|].
  destruct (index_of str_eqb s ns); cbn; [|tauto]. split; [discriminate|]. intros H. apply IH in H. discriminate.
Qed.
Lemma mapping_get ns s : length ns <= 52 ->
  dict_get str_eqb s (mapping ns) = if str_mem s ns then Some (letter_of ns s) else None.
Proof.
  intros H. unfold mapping. rewrite combine_get by (rewrite letters_len; lia). unfold letter_of.
  destruct (index_of str_eqb s ns) eqn:E.
  - destruct (str_mem s ns) eqn:Em; [reflexivity|]. apply index_of_mem in Em. congruence.
  - apply index_of_mem in E. rewrite E. reflexivity.
Qed.
Lemma mapping_set ns s c : length ns <= 51 -> str_mem s ns = false -> nth_error letters (length ns) = Some c ->
  dict_set str_eqb s c (mapping ns) = mapping (ns ++ [s]).
Proof.
  unfold mapping. generalize letters. induction ns as [|n ns IH]; intros ls H Hm Hc.
  - destruct ls as [|c' ls]; cbn in Hc; [discriminate|]. injection Hc as ->. cbn. destruct ls; reflexivity.
  - destruct ls as [|c' ls]; cbn in Hc; [discriminate|]. cbn in Hm. apply orb_false_iff in Hm as [H1 H2].
    cbn [combine app dict_set]. rewrite H1. f_equal. apply IH; [cbn in H; lia|exact H2|exact Hc].
Qed.

Definition add_name (acc : list pystr) (s : pystr) : list pystr := if str_mem s acc then acc else acc ++ [s].
Definition add_names (acc : list pystr) (l : list pystr) : list pystr := fold_left add_name l acc.
Lemma distinct_add l : distinct l = add_names [] l.
Proof. reflexivity. Qed.
Lemma add_names_app acc l m : add_names acc (l ++ m) = add_names (add_names acc l) m.
Proof. apply fold_left_app. Qed.
Lemma add_name_In acc s x : In x (add_name acc s) <-> In x acc \/ x = s.
Proof.
  unfold add_name. destruct (str_mem s acc) eqn:E.
  - apply str_mem_In' in E. split; [tauto|]. intros [H| ->]; assumption.
  - rewrite in_app_iff. cbn. split; intros [H|H]; auto. destruct H as [<-|[]]. auto.
Qed.
Lemma add_names_In l : forall acc x, In x (add_names acc l) <-> In x acc \/ In x l.
Proof.
  induction l as [|s l IH]; intros acc x; [cbn; tauto|]. cbn [add_names fold_left]. change (fold_left add_name l (add_name acc s)) with (add_names (add_name acc s) l).
  rewrite IH, add_name_In. cbn [In]. split; [intros [[H|H]|H]|intros [H|[H|H]]]; auto.
Qed.
Lemma add_name_NoDup acc s : NoDup acc -> NoDup (add_name acc s).
Proof.
  intros H. unfold add_name. destruct (str_mem s acc) eqn:E; [exact H|].
  apply NoDup_app_iff. split; [exact H|]. split; [constructor; [intros []|constructor]|]. intros x Hx [<-|[]].
  apply str_mem_In' in Hx. congruence.
Qed.
Lemma add_names_NoDup l : forall acc, NoDup acc -> NoDup (add_names acc l).
Proof. induction l as [|s l IH]; intros acc H; [exact H|]. apply IH, add_name_NoDup, H. Qed.
Lemma add_name_prefix acc s : exists t, add_name acc s = acc ++ t.
Proof. unfold add_name. destruct (str_mem s acc); [exists []; rewrite app_nil_r; reflexivity|eauto]. Qed.
Lemma add_names_prefix l : forall acc, exists t, add_names acc l = acc ++ t.
Proof.
  induction l as [|s l IH]; intros acc; [exists []; rewrite app_nil_r; reflexivity|].
  destruct (IH (add_name acc s)) as [t Ht]. destruct (add_name_prefix acc s) as [u Hu].
  exists (u ++ t). cbn [add_names fold_left]. change (fold_left add_name l (add_name acc s)) with (add_names (add_name acc s) l).
  rewrite Ht, Hu, app_assoc. reflexivity.
Qed.
Lemma index_of_app s a b k : index_of str_eqb s a = Some k -> index_of str_eqb s (a ++ b) = Some k.
Proof.
  revert k. induction a as [|x a IH]; intros k H; [discriminate|]. cbn in *. destruct (str_eqb s x); [exact H|].
  destruct (index_of str_eqb s a); [|discriminate]. rewrite (IH n eq_refl). exact H.
Qed.
Lemma letter_stable ns t s : In s ns -> letter_of (ns ++ t) s = letter_of ns s.
Proof.
  intros H. unfold letter_of. destruct (index_of str_eqb s ns) eqn:E; [rewrite (index_of_app _ _ _ _ E); reflexivity|].
  apply index_of_mem in E. apply str_mem_In' in H. congruence.
Qed.

(** ** the loops *)
Lemma left_axis_step_spec ns str i k : length ns <= 52 ->
  left_axis_step (mapping ns, str) (item_comp k i) =
  match item_entry i with
  | None => Err NotImplementedError
  | Some EDots => Ok (mapping ns, str ++ lit "...")
  | Some (EName s) => if length (add_name ns s) <=? 52 then Ok (mapping (add_name ns s), str ++ [letter_of (add_name ns s) s]) else Err RuntimeError
  end.
Proof.
  intros H. unfold left_axis_step. rewrite einsum_axis_item. destruct (item_entry i) as [[s|]|]; cbn [entry_result bind]; try reflexivity.
  unfold dict_has. rewrite mapping_get by exact H. unfold add_name. destruct (str_mem s ns) eqn:E.
  - cbn [bind]. rewrite mapping_get, E by exact H. cbn. rewrite (proj2 (Nat.leb_le _ _) H). reflexivity.
  - rewrite mapping_len by exact H. rewrite letters_eq. destruct (nth_error letters (length ns)) as [c|] eqn:En.
    + assert (L : length ns < 52) by (rewrite <- letters_len; apply nth_error_Some; congruence).
      cbn [bind]. rewrite (mapping_set ns s c) by (auto; lia).
      assert (L2 : length (ns ++ [s]) <= 52) by (rewrite app_length; cbn; lia).
      rewrite mapping_get by exact L2. rewrite (proj2 (str_mem_In' s (ns ++ [s])));
        [|apply in_or_app; right; left; reflexivity].
      cbn. rewrite (proj2 (Nat.leb_le _ _) L2). reflexivity.
    + apply nth_error_None in En. rewrite letters_len in En. cbn.
      rewrite (proj2 (Nat.leb_gt (length (ns ++ [s])) 52)); [reflexivity|]. rewrite app_length. cbn. lia.
Qed.

(** success of the loop over one left expression *)
Lemma left_loop : forall e k ns str st, length ns <= 52 ->
  (foldM left_axis_step (comps k e) (mapping ns, str) = Ok st <->
   exists es, map item_entry e = map Some es /\ length (add_names ns (entry_names es)) <= 52 /\
     st = (mapping (add_names ns (entry_names es)), str ++ short (letter_of (add_names ns (entry_names es))) es)).
Proof.
  intros e. induction e as [|i e IH]; intros k ns str st H.
  - cbn. split.
    + intros E. injection E as <-. exists []. split; [reflexivity|]. split; [exact H|]. cbn. rewrite app_nil_r. reflexivity.
    + intros (es & E & _ & ->). destruct es; [|discriminate]. cbn. rewrite app_nil_r. reflexivity.
  - cbn [comps foldM map]. rewrite left_axis_step_spec by exact H. destruct (item_entry i) as [[s|]|] eqn:Ei; cbn [bind].
    + destruct (length (add_name ns s) <=? 52) eqn:L; cbn [bind].
      * apply Nat.leb_le in L. rewrite IH by exact L. split.
        -- intros (es & E & Hl & ->). exists (EName s :: es). cbn [map entry_names flat_map app add_names fold_left].
           split; [rewrite E; reflexivity|]. split; [exact Hl|]. cbn [short flat_map short_entry]. rewrite <- app_assoc. f_equal.
           f_equal. f_equal. f_equal. change (fold_left add_name (flat_map _ es) (add_name ns s)) with (add_names (add_name ns s) (entry_names es)).
           destruct (add_names_prefix (entry_names es) (add_name ns s)) as [t ->]. rewrite letter_stable; [reflexivity|]. apply add_name_In. auto.
        -- intros (es & E & Hl & ->). destruct es as [|x es]; [discriminate|]. cbn [map] in E. injection E as Ex E. subst x.
           cbn [entry_names flat_map app add_names fold_left] in Hl |- *. exists es. split; [exact E|]. split; [exact Hl|].
           cbn [short flat_map short_entry]. rewrite <- app_assoc. f_equal. f_equal. cbn [app]. f_equal.
           change (fold_left add_name (flat_map _ es) (add_name ns s)) with (add_names (add_name ns s) (entry_names es)).
           destruct (add_names_prefix (entry_names es) (add_name ns s)) as [t ->]. rewrite letter_stable; [reflexivity|]. apply add_name_In. auto.
      * apply Nat.leb_gt in L. split; [discriminate|]. intros (es & E & Hl & _). exfalso.
        destruct es as [|x es]; [discriminate|]. cbn [map] in E. injection E as Ex E. subst x.
        cbn [entry_names flat_map app add_names fold_left] in Hl.
        change (fold_left add_name (flat_map _ es) (add_name ns s)) with (add_names (add_name ns s) (entry_names es)) in Hl.
        destruct (add_names_prefix (entry_names es) (add_name ns s)) as [t Ht]. rewrite Ht, app_length in Hl. lia.
    + rewrite IH by exact H. split.
      * intros (es & E & Hl & ->). exists (EDots :: es). cbn [map entry_names flat_map app]. split; [rewrite E; reflexivity|].
        split; [exact Hl|]. cbn [short flat_map short_entry]. rewrite <- app_assoc. reflexivity.
      * intros (es & E & Hl & ->). destruct es as [|x es]; [discriminate|]. cbn [map] in E. injection E as Ex E. subst x.
        exists es. split; [exact E|]. split; [exact Hl|]. cbn [short flat_map short_entry]. rewrite <- app_assoc. reflexivity.
    + split; [discriminate|]. intros (es & E & _). destruct es; discriminate.
Qed.

(** the parsed left expressions *)
Fixpoint compile_all (k : nat) (es : list expr) : list parsed * nat :=
  match es with
  | [] => ([], k)
  | e :: es' => let '(p, k1) := compile k e in let '(ps, k2) := compile_all k1 es' in (p :: ps, k2)
  end.

Lemma parse_all U (HU : unicode_ok U) : forall ss acc k st,
  foldM (fun '(lefts, next) s => let* (p, next) := parse_expression U true true next s in Ok (lefts ++ [p], next)) ss (acc, k) = Ok st <->
  exists es, Forall2 (written_as U true true) ss es /\ st = (acc ++ fst (compile_all k es), snd (compile_all k es)).
Proof.
  intros ss. induction ss as [|s ss IH]; intros acc k st.
  - cbn. split.
    + intros H. injection H as <-. exists []. split; [constructor|]. cbn. rewrite app_nil_r. reflexivity.
    + intros (es & H & ->). inversion H; subst. cbn. rewrite app_nil_r. reflexivity.
  - cbn [foldM]. split.
    + intros H. destruct (parse_expression U true true k s) as [[p k']|] eqn:E; cbn [bind] in H; [|discriminate].
      apply (parse_expression_iff U HU) in E as (e & He & Ep). apply IH in H as (es & Hes & ->).
      exists (e :: es). split; [constructor; assumption|]. cbn [compile_all]. rewrite <- Ep. cbn. destruct (compile_all k' es). cbn. rewrite <- app_assoc. reflexivity.
    + intros (es & H & ->). inversion H as [|? e ? es' He Hes]; subst.
      assert (E : parse_expression U true true k s = Ok (compile k e)) by (apply (parse_expression_iff U HU); eauto).
      rewrite E. destruct (compile k e) as [p k'] eqn:Ep. cbn [bind]. apply IH. exists es'. split; [exact Hes|].
      cbn [compile_all]. rewrite Ep. destruct (compile_all k' es'). cbn. rewrite <- app_assoc. reflexivity.
Qed.

Lemma short_stable ns t es : incl (entry_names es) ns -> short (letter_of (ns ++ t)) es = short (letter_of ns) es.
Proof.
  induction es as [|x es IH]; intros H; [reflexivity|]. cbn [short flat_map]. f_equal.
  - destruct x as [s|]; [|reflexivity]. cbn. f_equal. apply letter_stable. apply H. left. reflexivity.
  - apply IH. intros y Hy. apply H. cbn. apply in_or_app. right. exact Hy.
Qed.

(** success of the loop over all left expressions *)
Lemma lefts_loop : forall es k ns strs st, length ns <= 52 ->
  (foldM left_step (fst (compile_all k es)) (mapping ns, strs) = Ok st <->
   exists Ls, map (map item_entry) es = map (map Some) Ls /\ length (add_names ns (all_names Ls)) <= 52 /\
     st = (mapping (add_names ns (all_names Ls)), strs ++ map (short (letter_of (add_names ns (all_names Ls)))) Ls)).
Proof.
  intros es. induction es as [|e es IH]; intros k ns strs st H.
  - cbn. split.
    + intros E. injection E as <-. exists []. split; [reflexivity|]. split; [exact H|]. cbn. rewrite app_nil_r. reflexivity.
    + intros (Ls & E & _ & ->). destruct Ls; [|discriminate]. cbn. rewrite app_nil_r. reflexivity.
  - cbn [compile_all]. destruct (compile k e) as [p k1] eqn:Ep. specialize (IH k1). destruct (compile_all k1 es) as [ps k2]. cbn [fst] in IH |- *.
    assert (Ec : p_composition p = comps k e) by (unfold compile in Ep; injection Ep as <- _; reflexivity).
    cbn [foldM left_step]. rewrite Ec. split.
    + intros HH. destruct (foldM left_axis_step (comps k e) (mapping ns, [])) as [[m str]|] eqn:El; cbn [bind] in HH; [|discriminate].
      apply left_loop in El as (x & Ex & Hl & Em); [|exact H]. injection Em as -> ->.
      apply IH in HH as (Ls & ELs & HLs & ->); [|exact Hl].
      exists (x :: Ls). cbn [map all_names flat_map]. rewrite add_names_app. split; [rewrite Ex, ELs; reflexivity|]. split; [exact HLs|].
      change (flat_map entry_names Ls) with (all_names Ls). rewrite <- app_assoc. cbn [app]. do 3 f_equal.
      destruct (add_names_prefix (all_names Ls) (add_names ns (entry_names x))) as [t ->]. rewrite short_stable; [reflexivity|].
      intros y Hy. apply add_names_In. auto.
    + intros (Ls & ELs & HLs & ->). destruct Ls as [|x Ls]; [discriminate|]. cbn [map] in ELs. injection ELs as Ex ELs.
      cbn [all_names flat_map] in HLs |- *. rewrite add_names_app in HLs |- *. change (flat_map entry_names Ls) with (all_names Ls) in *.
      assert (Hl : length (add_names ns (entry_names x)) <= 52).
      { destruct (add_names_prefix (all_names Ls) (add_names ns (entry_names x))) as [t Ht]. rewrite Ht, app_length in HLs. lia. }
      assert (El : foldM left_axis_step (comps k e) (mapping ns, []) = Ok (mapping (add_names ns (entry_names x)), [] ++ short (letter_of (add_names ns (entry_names x))) x)).
      { apply left_loop; [exact H|]. exists x. auto. }
      rewrite El. cbn [bind app]. apply IH; [exact Hl|]. exists Ls. split; [exact ELs|]. split; [exact HLs|].
      rewrite <- app_assoc. cbn [app map]. do 3 f_equal.
      destruct (add_names_prefix (all_names Ls) (add_names ns (entry_names x))) as [t ->]. rewrite short_stable; [reflexivity|].
      intros y Hy. apply add_names_In. auto.
Qed.

Lemma right_loop ns : length ns <= 52 -> forall e k str c,
  (foldM (right_axis_step (mapping ns)) (comps k e) str = Ok c <->
   exists es, map item_entry e = map Some es /\ incl (entry_names es) ns /\ c = str ++ short (letter_of ns) es).
Proof.
  intros H e. induction e as [|i e IH]; intros k str c.
  - cbn. split.
    + intros E. injection E as <-. exists []. split; [reflexivity|]. split; [intros x []|]. cbn. rewrite app_nil_r. reflexivity.
    + intros (es & E & _ & ->). destruct es; [|discriminate]. cbn. rewrite app_nil_r. reflexivity.
  - cbn [comps foldM]. unfold right_axis_step at 1. rewrite einsum_axis_item. destruct (item_entry i) as [[s|]|] eqn:Ei; cbn [entry_result bind map].
    + rewrite mapping_get by exact H. destruct (str_mem s ns) eqn:Em; cbn [of_option bind].
      * rewrite IH. split.
        -- intros (es & E & Hi & ->). exists (EName s :: es). cbn [map]. rewrite Ei, E. split; [reflexivity|]. split.
           ++ cbn. intros x [<-|Hx]; [apply str_mem_In'; exact Em|apply Hi; exact Hx].
           ++ cbn. rewrite <- app_assoc. reflexivity.
        -- intros (es & E & Hi & ->). rewrite Ei in E. destruct es as [|x es]; [discriminate|]. cbn [map] in E. injection E as Ex E. subst x.
           exists es. split; [exact E|]. split; [intros x Hx; apply Hi; right; exact Hx|]. cbn. rewrite <- app_assoc. reflexivity.
      * split; [discriminate|]. intros (es & E & Hi & ->). rewrite Ei in E. destruct es as [|x es]; [discriminate|]. cbn [map] in E. injection E as Ex E. subst x.
        exfalso. assert (Hs : In s ns) by (apply Hi; left; reflexivity). apply str_mem_In' in Hs. congruence.
    + rewrite IH. split.
      * intros (es & E & Hi & ->). exists (EDots :: es). cbn [map]. rewrite Ei, E. split; [reflexivity|]. split; [exact Hi|]. cbn. rewrite <- app_assoc. reflexivity.
      * intros (es & E & Hi & ->). rewrite Ei in E. destruct es as [|x es]; [discriminate|]. cbn [map] in E. injection E as Ex E. subst x.
        exists es. split; [exact E|]. split; [exact Hi|]. cbn. rewrite <- app_assoc. reflexivity.
    + split; [discriminate|]. intros (es & E & _). rewrite Ei in E. destruct es; discriminate.
Qed.
