(** * EinMix: the text for einsum, the two rearrangements, and the constructor as a whole *)
From Verif Require Import Py Tensor ListFacts SpecSem SpecGrammar SpecEinsum SpecPattern SpecForms SpecOps Parsing Compile Recipe Ops Backends Api
  ParseFacts ParseFacts2 ParseFacts3 FrontFacts FrontFacts2 FrontFacts3 MainFacts MainFacts2 MainFacts3 EinsumFacts EinsumFacts2 EinsumFacts3 EinsumFacts4
  Layers Einsum LayerFacts EinMix SpecEinMix MixFacts MixFacts2.
From Coq Require Import Permutation.

(** ** the letters *)
Lemma get_set {V} (d : list (pystr * V)) k v s : dict_get str_eqb s (dict_set str_eqb k v d) = if str_eqb s k then Some v else dict_get str_eqb s d.
Proof.
  induction d as [|[k' v'] d IH]; cbn; [reflexivity|]. destruct (str_eqb k k') eqn:E.
  - apply str_eqb_eq in E. subst k'. cbn. destruct (str_eqb s k); reflexivity.
  - cbn. rewrite IH. destruct (str_eqb s k') eqn:E'; [|reflexivity]. apply str_eqb_eq in E'. subst k'.
    destruct (str_eqb s k) eqn:E2; [|reflexivity]. apply str_eqb_eq in E2. subst. rewrite str_eqb_refl in E. discriminate.
Qed.
Lemma combine_get' {V} s : forall ns (ls : list V), dict_get str_eqb s (combine ns ls) = match index_of str_eqb s ns with Some k => nth_error ls k | None => None end.
Proof.
  induction ns as [|n ns IH]; intros ls; [reflexivity|]. destruct ls as [|c ls].
  - cbn [combine dict_get]. destruct (index_of str_eqb s (n :: ns)) as [[|k]|]; reflexivity.
  - cbn [combine dict_get index_of]. destruct (str_eqb s n); [reflexivity|]. rewrite IH. destruct (index_of str_eqb s ns); reflexivity.
Qed.
Definition mix_names (k k' k'' : nat) (L R W : expr) : list pystr :=
  str_sorted (axis_names (filter (fun a => negb (axis_eqb a ax_ellipsis)) (set_union (set_union (ids k L) (ids k' R)) (ids k'' W)))).
Lemma letters_eq k k' k'' L R W : letters_for (fst (compile k L)) (fst (compile k' R)) (fst (compile k'' W)) =
  dict_set str_eqb ellipsis_str s_dots (combine (mix_names k k' k'' L R W) (map (fun c => [c]) ascii_lowercase)).
Proof. unfold letters_for, mix_names. rewrite !ids_eq. reflexivity. Qed.
Lemma in_axis_names l s : In s (axis_names l) <-> In (AxName s) l.
Proof.
  unfold axis_names. rewrite in_flat_map. split.
  - intros [[t|j n] [H X]]; [|destruct X]. destruct X as [<-|[]]. exact H.
  - intros H. exists (AxName s). split; [exact H|left; reflexivity].
Qed.
Lemma in_mix_names k k' k'' L R W s : In s (mix_names k k' k'' L R W) <-> In s (written_names L ++ written_names R ++ written_names W).
Proof.
  unfold mix_names. rewrite <- (Permutation_in' eq_refl (sorted_perm _)). rewrite in_axis_names, filter_In, !in_union, !in_ids.
  unfold written_names. rewrite !in_app_iff, !filter_In.
  assert (E : negb (axis_eqb (AxName s) ax_ellipsis) = negb (str_eqb s ell_name)).
  { f_equal. apply eq_true_iff_eq. rewrite axis_eqb_eq, str_eqb_eq. split; [intros X; injection X as X; exact X|intros ->; reflexivity]. }
  rewrite E. tauto.
Qed.
Lemma axis_names_NoDup l : NoDup l -> NoDup (axis_names l).
Proof.
  induction 1 as [|a l Ha _ IH]; [constructor|]. destruct a as [s|j n]; cbn; [|exact IH]. constructor; [|exact IH].
  intros X. apply Ha. apply in_axis_names. exact X.
Qed.
Lemma mix_names_NoDup k k' k'' L R W : NoDup (mix_names k k' k'' L R W).
Proof.
  unfold mix_names. eapply Permutation_NoDup; [apply sorted_perm|]. apply axis_names_NoDup, NoDup_filter. rewrite !union_update.
  apply set_update_NoDup, set_update_NoDup, ids_NoDup.
Qed.
Lemma mix_names_length k k' k'' L R W : length (mix_names k k' k'' L R W) = length (nodup str_eq_dec (written_names L ++ written_names R ++ written_names W)).
Proof.
  apply Nat.le_antisymm; apply NoDup_incl_length.
  - apply mix_names_NoDup.
  - intros s H. apply nodup_In. apply in_mix_names in H. exact H.
  - apply NoDup_nodup.
  - intros s H. apply nodup_In in H. apply (in_mix_names k k' k''). exact H.
Qed.

(** what einsum is asked for *)
Definition term_of (l : list atom) : term (X := pystr) := flat_map (fun a => match a with AName s => [Some s] | ADots => [None] | ANum _ => [] end) l.
Lemma lower_letters n : n < 26 -> nth_error ascii_lowercase n = nth_error letters n.
Proof. intros H. do 26 (destruct n as [|n]; [reflexivity|]). lia. Qed.
Section Texts.
  Context (names : list pystr).
  Notation mapping := (dict_set str_eqb ellipsis_str s_dots (combine names (map (fun c => [c]) ascii_lowercase))).
  Lemma write_flat k E : write_flat_remapped mapping (fst (compile k E)) = let* ts := mapM (remap mapping) (atoms_axes k (atoms E)) in Ok (concat ts).
  Proof.
    unfold write_flat_remapped, compile. cbn [fst p_composition]. rewrite <- concat_comps.
    induction (comps k E) as [|c cs IH]; [reflexivity|]. cbn [mapM map concat]. rewrite mapM_app.
    assert (Ec : match c with CGrp l => let* ts := mapM (remap mapping) l in Ok (concat ts) | CEll => Ok s_dots end = let* ts := mapM (remap mapping) (comp_axes c) in Ok (concat ts)).
    { destruct c as [|l]; [|reflexivity]. cbn [comp_axes mapM remap ax_ellipsis]. rewrite get_set, str_eqb_refl. reflexivity. }
    rewrite Ec. destruct (mapM (remap mapping) (comp_axes c)) as [ts|ex]; [|reflexivity]. cbn [bind].
    destruct (mapM _ cs) as [texts|ex]; cbn [bind] in *.
    - destruct (mapM (remap mapping) (concat (map comp_axes cs))) as [ts2|]; [|discriminate]. cbn [bind] in *. injection IH as IH. cbn [concat]. rewrite concat_app, IH. reflexivity.
    - destruct (mapM (remap mapping) (concat (map comp_axes cs))) as [ts2|]; [discriminate|]. cbn [bind] in *. exact IH.
  Qed.
  Lemma remap_name s : s <> ell_name -> remap mapping (AxName s) = of_option KeyError (match index_of str_eqb s names with Some k => option_map (fun c => [c]) (nth_error ascii_lowercase k) | None => None end).
  Proof.
    intros Hs. cbn [remap]. rewrite get_set. destruct (str_eqb s ellipsis_str) eqn:E; [apply str_eqb_eq in E; contradiction|].
    rewrite combine_get'. destruct (index_of str_eqb s names); [|reflexivity]. rewrite nth_error_map. reflexivity.
  Qed.
  Definition within26 (s : pystr) : Prop := exists j, index_of str_eqb s names = Some j /\ j < 26.
  Lemma remap_iff s t : s <> ell_name -> (remap mapping (AxName s) = Ok t <-> within26 s /\ t = [letter_of names s]).
  Proof.
    intros Hs. rewrite remap_name by exact Hs. unfold within26, letter_of. rewrite of_option_Ok. destruct (index_of str_eqb s names) as [j|].
    - split.
      + intros H. destruct (nth_error ascii_lowercase j) as [c|] eqn:E; [|discriminate]. cbn in H. injection H as <-.
        assert (Hj : j < 26) by (change 26 with (length ascii_lowercase); apply nth_error_Some; congruence).
        split; [eauto|]. rewrite lower_letters in E by exact Hj. rewrite (nth_error_nth letters j 0%N E). reflexivity.
      + intros [[j' [X Hj]] ->]. injection X as <-. rewrite lower_letters by exact Hj. rewrite (nth_error_nth' letters 0%N); [reflexivity|]. rewrite letters_len. lia.
    - split; [discriminate|]. intros [[j [X _]] _]. discriminate.
  Qed.
  Lemma remap_all l : forall k ts, existsb is_big l = false -> ~ In (AName ell_name) l ->
    (mapM (remap mapping) (atoms_axes k l) = Ok ts <->
     (forall s, In (AName s) l -> within26 s) /\ ts = map (fun o => match o with Some c => [c] | None => lit "..." end) (map_term (letter_of names) (term_of l))).
  Proof.
    induction l as [|a l IH]; intros k ts Hb Hn.
    - cbn. split; [intros H; injection H as <-; split; [intros s []|reflexivity]|intros [_ ->]; reflexivity].
    - cbn [existsb] in Hb. apply orb_false_iff in Hb as [Hb1 Hb2]. assert (Hn2 : ~ In (AName ell_name) l) by (intros X; apply Hn; right; exact X).
      destruct a as [s|n|].
      + assert (Hs : s <> ell_name) by (intros ->; apply Hn; left; reflexivity).
        cbn [atoms_axes atom_axes app mapM]. split.
        * intros H. apply bind_Ok in H as [t [Ht H]]. apply bind_Ok in H as [ts' [H1 H2]]. injection H2 as <-.
          apply remap_iff in Ht as [Hw ->]; [|exact Hs]. apply IH in H1 as [H1 ->]; auto. split; [|reflexivity].
          intros s' [X|X]; [injection X as <-; exact Hw|apply H1, X].
        * intros [H ->]. rewrite (proj2 (remap_iff s [letter_of names s] Hs)) by (split; [apply H; left; reflexivity|reflexivity]). cbn [bind].
          rewrite (proj2 (IH _ _ Hb2 Hn2) (conj (fun s' X => H s' (or_intror X)) eq_refl)). reflexivity.
      + cbn in Hb1. apply negb_false_iff in Hb1. cbn [atoms_axes atom_axes]. rewrite Hb1. cbn [app]. rewrite IH by auto.
        change (term_of (ANum n :: l)) with (term_of l). split; intros [H ->]; (split; [|reflexivity]).
        * intros s [X|X]; [discriminate|apply H, X].
        * intros s X. apply H. right. exact X.
      + cbn [atoms_axes atom_axes app mapM]. cbn [remap ax_ellipsis]. rewrite get_set, str_eqb_refl. cbn [of_option bind]. split.
        * intros H. apply bind_Ok in H as [ts' [H1 H2]]. injection H2 as <-. apply IH in H1 as [H1 ->]; auto. split; [|reflexivity].
          intros s [X|X]; [discriminate|apply H1, X].
        * intros [H ->]. rewrite (proj2 (IH _ _ Hb2 Hn2) (conj (fun s' X => H s' (or_intror X)) eq_refl)). reflexivity.
  Qed.
  Lemma write_iff k E t : has_numbers E = false -> plain E ->
    (write_flat_remapped mapping (fst (compile k E)) = Ok t <->
     (forall s, In (AName s) (atoms E) -> within26 s) /\ t = compact_term (map_term (letter_of names) (term_of (atoms E)))).
  Proof.
    intros Hb Hp. rewrite write_flat. unfold compact_term. rewrite flat_map_concat_map. split.
    - intros H. apply bind_Ok in H as [ts [H1 H2]]. injection H2 as <-. apply remap_all in H1 as [H1 ->]; auto.
    - intros [H ->]. rewrite (proj2 (remap_all _ k _ Hb Hp) (conj H eq_refl)). reflexivity.
  Qed.
End Texts.
Lemma name_key E s : plain E -> (In (AName s) (atoms E) <-> In s (written_names E)).
Proof.
  intros Hp. unfold written_names, keys. rewrite filter_In, in_flat_map. split.
  - intros H. split; [exists (AName s); split; [exact H|left; reflexivity]|]. destruct (str_eqb s ell_name) eqn:X; [|reflexivity]. apply str_eqb_eq in X. subst. contradiction.
  - intros [[a [Ha Hs]] X]. destruct a as [t|n|]; cbn in Hs; try destruct Hs as [<-|[]]; try contradiction; [exact Ha|].
    rewrite str_eqb_refl in X. discriminate.
Qed.
Definition mix_text (names : list pystr) (L R W : expr) : pystr :=
  compact_pattern [map_term (letter_of names) (term_of (atoms L)); map_term (letter_of names) (term_of (atoms W))] (map_term (letter_of names) (term_of (atoms R))).
Lemma text_iff k k' k'' L R W t : has_numbers L = false -> has_numbers R = false -> has_numbers W = false -> plain L -> plain R -> plain W ->
  (einsum_text (fst (compile k L)) (fst (compile k' R)) (fst (compile k'' W)) = Ok t <->
   length (mix_names k k' k'' L R W) <= 26 /\ t = mix_text (mix_names k k' k'' L R W) L R W).
Proof.
  intros HL HR HW PL PR PW. unfold einsum_text. rewrite letters_eq. set (names := mix_names k k' k'' L R W). split.
  - intros H. apply bind_Ok in H as [l [Hl H]]. apply bind_Ok in H as [w [Hw H]]. apply bind_Ok in H as [r [Hr H]]. injection H as <-.
    apply write_iff in Hl as [Hl ->]; auto. apply write_iff in Hw as [Hw ->]; auto. apply write_iff in Hr as [Hr ->]; auto. split.
    + destruct (le_lt_dec (length names) 26) as [X|X]; [exact X|exfalso].
      destruct (nth_error names 26) as [s|] eqn:E; [|apply nth_error_None in E; lia].
      assert (Hin : In s names) by (eapply nth_error_In; eauto). apply in_mix_names in Hin.
      assert (Hw26 : within26 names s).
      { apply in_app_or in Hin as [Hin|Hin]; [apply Hl, name_key; auto|]. apply in_app_or in Hin as [Hin|Hin]; [apply Hr, name_key; auto|apply Hw, name_key; auto]. }
      destruct Hw26 as [j [Hj Hlt]]. rewrite (index_of_nth str_eqb str_eqb_eq names 26 s (mix_names_NoDup _ _ _ _ _ _) E) in Hj. injection Hj as <-. lia.
    + unfold mix_text, compact_pattern. cbn [map str_join]. rewrite <- !app_assoc. reflexivity.
  - intros [Hle ->].
    assert (Hall : forall s, In s names -> within26 names s).
    { intros s Hs. destruct (index_of_In str_eqb str_eqb_eq s names Hs) as [j Hj]. exists j. split; [exact Hj|]. apply (index_of_lt str_eqb str_eqb_eq) in Hj. lia. }
    rewrite (proj2 (write_iff names k L _ HL PL) (conj (fun s X => Hall s (proj2 (in_mix_names _ _ _ _ _ _ _) (in_or_app _ _ _ (or_introl (proj1 (name_key L s PL) X))))) eq_refl)). cbn [bind].
    rewrite (proj2 (write_iff names k'' W _ HW PW) (conj (fun s X => Hall s (proj2 (in_mix_names _ _ _ _ _ _ _) (in_or_app _ _ _ (or_intror (in_or_app _ _ _ (or_intror (proj1 (name_key W s PW) X))))))) eq_refl)). cbn [bind].
    rewrite (proj2 (write_iff names k' R _ HR PR) (conj (fun s X => Hall s (proj2 (in_mix_names _ _ _ _ _ _ _) (in_or_app _ _ _ (or_intror (in_or_app _ _ _ (or_introl (proj1 (name_key R s PR) X))))))) eq_refl)). cbn [bind].
    unfold mix_text, compact_pattern. cbn [map str_join]. rewrite <- !app_assoc. reflexivity.
Qed.
