(** * Other names: einsum and parse_shape *)
From Verif Require Import Py ListFacts Tensor SpecSem SpecGrammar SpecForms SpecPattern SpecOps SpecEinsum SpecPacking SpecLabels Parsing Compile Recipe Ops Backends Api Packing PackFacts Einsum
  ParseFacts ParseFacts2 ParseFacts3 EinsumFacts EinsumFacts2 RelabelLaws FrontFacts2.

Section Distinct.
  Context (f : pystr -> pystr).
  Lemma mem_rename s l N : injective_on f N -> In s N -> incl l N -> str_mem (f s) (map f l) = str_mem s l.
  Proof.
    intros Hf Hs Hl. destruct (str_mem s l) eqn:E.
    - apply str_mem_In' in E. apply str_mem_In'. apply in_map, E.
    - destruct (str_mem (f s) (map f l)) eqn:E'; [|reflexivity]. apply str_mem_In' in E'. apply in_map_iff in E' as (t & Et & Ht).
      apply Hf in Et; [|apply Hl, Ht|exact Hs]. subst t. apply str_mem_In' in Ht. congruence.
  Qed.
  Lemma add_names_rename l N : injective_on f N -> forall acc, incl acc N -> incl l N -> add_names (map f acc) (map f l) = map f (add_names acc l).
  Proof.
    intros Hf. induction l as [|s l IH]; intros acc Ha Hl; [reflexivity|]. cbn [map add_names fold_left].
    change (fold_left add_name (map f l) ?a) with (add_names a (map f l)). change (fold_left add_name l ?a) with (add_names a l).
    assert (E : add_name (map f acc) (f s) = map f (add_name acc s)).
    { unfold add_name. rewrite (mem_rename s acc N Hf (Hl s (or_introl eq_refl)) Ha). destruct (str_mem s acc); [reflexivity|]. rewrite map_app. reflexivity. }
    rewrite E. apply IH; [|intros x Hx; apply Hl; right; exact Hx]. intros x Hx. apply add_name_In in Hx as [Hx| ->]; [apply Ha, Hx|apply Hl; left; reflexivity].
  Qed.
  Lemma index_of_rename s N : injective_on f N -> In s N -> forall l, incl l N -> index_of str_eqb (f s) (map f l) = index_of str_eqb s l.
  Proof.
    intros Hf Hs. induction l as [|t l IH]; intros Hl; [reflexivity|]. cbn [map index_of].
    assert (E : str_eqb (f s) (f t) = str_eqb s t).
    { destruct (str_eqb s t) eqn:E.
      - apply str_eqb_eq' in E. subst. apply str_eqb_eq'. reflexivity.
      - destruct (str_eqb (f s) (f t)) eqn:E'; [|reflexivity]. apply str_eqb_eq' in E'. apply Hf in E'; [|exact Hs|apply Hl; left; reflexivity].
        subst. assert (str_eqb t t = true) by (apply str_eqb_eq'; reflexivity). congruence. }
    rewrite E, IH; [reflexivity|]. intros x Hx. apply Hl. right. exact Hx.
  Qed.
  Lemma names_rename es : entry_names (rename_entries f es) = map f (entry_names es).
  Proof. induction es as [|[s|] es IH]; [reflexivity| |exact IH]. cbn. f_equal. exact IH. Qed.
  Lemma all_names_rename Ls : all_names (map (rename_entries f) Ls) = map f (all_names Ls).
  Proof. induction Ls as [|es Ls IH]; [reflexivity|]. cbn [map all_names flat_map]. rewrite map_app, names_rename. f_equal. exact IH. Qed.
  Lemma short_rename ns es N : injective_on f N -> incl ns N -> incl (entry_names es) N ->
    short (letter_of (map f ns)) (rename_entries f es) = short (letter_of ns) es.
  Proof.
    intros Hf Hn. induction es as [|x es IH]; intros H; [reflexivity|]. cbn [rename_entries map short flat_map]. f_equal.
    - destruct x as [s|]; [|reflexivity]. cbn [rename_entry short_entry]. f_equal. unfold letter_of.
      rewrite (index_of_rename s N Hf (H s (or_introl eq_refl)) ns Hn). reflexivity.
    - apply IH. intros y Hy. apply H. cbn. apply in_or_app. right. exact Hy.
  Qed.
End Distinct.

Lemma names_all es Ls : map (map item_entry) es = map (map Some) Ls -> flat_map expr_names es = all_names Ls.
Proof.
  revert Ls. induction es as [|x es IH]; intros [|L Ls] H; try discriminate; [reflexivity|]. cbn in H. injection H as H1 H2.
  cbn. rewrite (names_of _ _ H1), (IH _ H2). reflexivity.
Qed.
Lemma map_map_Some_inj {A} : forall l m : list (list A), map (map Some) l = map (map Some) m -> l = m.
Proof. induction l as [|x l IH]; intros [|y m] H; try discriminate; [reflexivity|]. cbn in H. injection H as H1 H2. f_equal; [apply map_Some_inj, H1|apply IH, H2]. Qed.
Lemma entries_some (e : expr) (es : list entry) i : map item_entry e = map Some es -> In i e -> item_entry i <> None.
Proof. intros H Hi E. assert (K : In (item_entry i) (map Some es)) by (rewrite <- H; apply in_map, Hi). rewrite E in K. apply in_map_iff in K as (x & Hx & _). discriminate. Qed.

Section Einsum.
  Context (U : unicode) (HU : unicode_ok U).

  (** what happens to a pattern that reads well, errors included *)
  Lemma compactify_reads pattern Ls R : einsum_reads U pattern Ls R ->
    compactify U pattern =
    if 52 <? length (distinct (all_names Ls)) then Err RuntimeError
    else if forallb (fun s => str_mem s (all_names Ls)) (entry_names R) then Ok (short_pattern (letter_of (distinct (all_names Ls))) Ls R)
    else Err EinopsError.
  Proof.
    intros Hr. destruct (52 <? length (distinct (all_names Ls))) eqn:L.
    - apply Nat.ltb_lt in L. unfold compactify. apply einsum_reads_split in Hr as (l & r & E & HL & e & He & ER); [|exact HU].
      rewrite (contains_arrow _ _ _ E), E. cbn [negb raise_if bind].
      apply Forall2_lists_inv in HL as (es & Hes & ELs). rewrite distinct_add in *.
      assert (H1 := proj2 (parse_all U HU (str_split s_comma l) [] 0 _) (ex_intro _ es (conj Hes eq_refl))).
      rewrite H1. cbn [bind app].
      assert (H2 : parse_expression U true false (snd (compile_all 0 es)) r = Ok (compile (snd (compile_all 0 es)) e)) by (apply (parse_expression_iff U HU); eauto).
      rewrite H2. destruct (compile (snd (compile_all 0 es)) e) as [rght k2] eqn:Ep. cbn [bind].
      destruct (foldM left_step (fst (compile_all 0 es)) ([], [])) as [st|ex] eqn:H3.
      + exfalso. change (@nil (pystr * N)) with (mapping []) in H3. apply lefts_loop in H3 as (Ls' & E' & Hl & _); [|cbn; lia].
        assert (Ls' = Ls) by (apply map_map_Some_inj; congruence). subst Ls'. lia.
      + cbn [bind]. change (@nil (pystr * N)) with (mapping []) in H3. apply lefts_loop_err in H3 as [[-> (e' & i & He' & Hi & Ei)]|[-> _]]; [|reflexivity|cbn; lia].
        exfalso. assert (K : In (map item_entry e') (map (map Some) Ls)) by (rewrite <- ELs; apply in_map, He').
        apply in_map_iff in K as (x & Ex & _). eapply entries_some; [symmetry; exact Ex|exact Hi|exact Ei].
    - apply Nat.ltb_ge in L. destruct (forallb (fun s => str_mem s (all_names Ls)) (entry_names R)) eqn:F.
      + apply (compactify_iff U HU). exists Ls, R. split; [exact Hr|]. split; [|auto]. intros s Hs. rewrite forallb_forall in F. apply str_mem_In', F, Hs.
      + destruct (compactify U pattern) as [c|ex] eqn:Ec.
        * exfalso. apply (compactify_iff U HU) in Ec as (Ls' & R' & Hr' & Hi & _ & _).
          destruct (einsum_reads_fun U HU _ _ _ _ _ Hr Hr') as [<- <-].
          assert (F' : forallb (fun s => str_mem s (all_names Ls)) (entry_names R) = true) by (apply forallb_forall; intros s Hs; apply str_mem_In', Hi, Hs).
          congruence.
        * f_equal. assert (Hr0 := Hr). apply einsum_reads_split in Hr as (l & r & E & HL & e & He & ER); [|exact HU].
          apply Forall2_lists_inv in HL as (es & Hes & ELs).
          apply (compactify_err U HU) in Ec as [[_ Hn]|(ls & r' & Ep & Hne & Hc & Hx)].
          { exfalso. destruct Hr0 as (ls & r0 & Ep & Hne & HL & HR). eapply (Hn (str_join s_comma ls) r0); [| |exact Ep].
            - apply no_minus_free. apply join_free; [discriminate|]. clear -HL HU.
              induction HL as [|? ? ? ? (e & He & _) _ IH]; constructor; [eapply minus_free; eauto|exact IH].
            - destruct HR as (e0 & He0 & _). apply no_minus_free. eapply minus_free; eauto. }
          assert (Es : str_split s_comma (str_join s_comma ls) = ls) by (apply split_char; auto).
          destruct Hx as [[-> _]|(es' & e' & Hes' & He' & Hx)]; [reflexivity|].
          destruct Hx as [[-> (i & Hi & Ei)]|[[-> Hl]|[-> _]]]; [| |reflexivity].
          -- exfalso. assert (Hw : einsum_reads U pattern Ls R) by exact Hr0.
             assert (A1 : ls = str_split s_comma l /\ r' = r).
             { assert (Hm : Forall (fun x => ~ In c_minus x) ls).
               { clear -Hes' HU. induction Hes' as [|? ? ? ? He _ IH]; constructor; [eapply minus_free; eauto|exact IH]. }
               assert (Q : str_split s_arrow pattern = [str_join s_comma ls; r']).
               { rewrite Ep, split_one_arrow; [|apply no_minus_free, join_free; [discriminate|exact Hm]].
                 rewrite split_free; [reflexivity|]. apply no_minus_free. eapply minus_free; eauto. }
               rewrite E in Q. injection Q as -> ->. auto. }
             destruct A1 as [-> ->].
             assert (e' = e) by (eapply written_fun; eauto). subst e'.
             assert (es' = es). { clear -Hes Hes' HU. revert es' Hes'. induction Hes as [|s e ss es Hs _ IH]; intros es' H; inversion H; subst; [reflexivity|]. f_equal; [eapply written_fun; eauto|auto]. }
             subst es'. apply in_app_or in Hi as [Hi|Hi].
             ++ apply in_concat in Hi as (e1 & He1 & Hi). assert (K : In (map item_entry e1) (map (map Some) Ls)) by (rewrite <- ELs; apply in_map, He1).
                apply in_map_iff in K as (x & Ex & _). eapply entries_some; [symmetry; exact Ex|exact Hi|exact Ei].
             ++ eapply entries_some; [exact ER|exact Hi|exact Ei].
          -- exfalso.
             assert (Hm : Forall (fun x => ~ In c_minus x) ls).
             { clear -Hes' HU. induction Hes' as [|? ? ? ? He _ IH]; constructor; [eapply minus_free; eauto|exact IH]. }
             assert (Q : str_split s_arrow pattern = [str_join s_comma ls; r']).
             { rewrite Ep, split_one_arrow; [|apply no_minus_free, join_free; [discriminate|exact Hm]].
               rewrite split_free; [reflexivity|]. apply no_minus_free. eapply minus_free; eauto. }
             rewrite E in Q. injection Q as Ql ->. rewrite Ql, Es in Hes.
             assert (es' = es). { clear -Hes Hes' HU. revert es' Hes'. induction Hes as [|s e0 ss es Hs _ IH]; intros es' H; inversion H; subst; [reflexivity|]. f_equal; [eapply written_fun; eauto|auto]. }
             subst es'. rewrite (names_all _ _ ELs) in Hl. lia.
  Qed.

  Lemma compactify_rename f p p' Ls R : einsum_reads U p Ls R -> einsum_reads U p' (map (rename_entries f) Ls) (rename_entries f R) ->
    injective_on f (all_names Ls ++ entry_names R) -> compactify U p' = compactify U p.
  Proof.
    intros H H' Hf. rewrite (compactify_reads _ _ _ H), (compactify_reads _ _ _ H').
    rewrite all_names_rename, names_rename.
    assert (D : distinct (map f (all_names Ls)) = map f (distinct (all_names Ls))).
    { rewrite !distinct_add. apply (add_names_rename f (all_names Ls) _ Hf []); [intros x []|intros x Hx; apply in_or_app; left; exact Hx]. }
    assert (DI : incl (distinct (all_names Ls)) (all_names Ls ++ entry_names R)).
    { rewrite distinct_add. intros x Hx. apply add_names_In in Hx as [[]|Hx]. apply in_or_app. left. exact Hx. }
    rewrite D, map_length. destruct (52 <? length (distinct (all_names Ls))); [reflexivity|].
    assert (F : forallb (fun s => str_mem s (map f (all_names Ls))) (map f (entry_names R)) = forallb (fun s => str_mem s (all_names Ls)) (entry_names R)).
    { assert (K : forall l, incl l (entry_names R) -> forallb (fun s => str_mem s (map f (all_names Ls))) (map f l) = forallb (fun s => str_mem s (all_names Ls)) l).
      { induction l as [|s l IH]; intros Hl; [reflexivity|]. cbn [map forallb]. rewrite IH by (intros x Hx; apply Hl; right; exact Hx).
        rewrite (mem_rename f s (all_names Ls) _ Hf); [reflexivity| |].
        - apply in_or_app. right. apply Hl. left. reflexivity.
        - intros x Hx. apply in_or_app. left. exact Hx. }
      apply K. intros x Hx. exact Hx. }
    rewrite F. destruct (forallb (fun s => str_mem s (all_names Ls)) (entry_names R)); [|reflexivity].
    f_equal. unfold short_pattern. f_equal; [|f_equal].
    - f_equal. rewrite map_map.
      assert (K : forall es, In es Ls -> short (letter_of (map f (distinct (all_names Ls)))) (rename_entries f es) = short (letter_of (distinct (all_names Ls))) es).
      { intros es He. eapply short_rename; [exact Hf|exact DI|]. intros x Hx. apply in_or_app. left. unfold all_names. apply in_flat_map. eauto. }
      apply map_ext_in. exact K.
    - eapply short_rename; [exact Hf|exact DI|]. intros x Hx. apply in_or_app. right. exact Hx.
  Qed.

  Lemma einsum_same {T} (lib : pystr -> list T -> result T) p p' args : compactify U p' = compactify U p -> 
    einsum_with U lib (args ++ [inr p']) = einsum_with U lib (args ++ [inr p]).
  Proof.
    intros H. unfold einsum_with, einsum_given. rewrite !app_length, !last_last, !removelast_last, H. reflexivity.
  Qed.
End Einsum.

(** ** parse_shape *)
Lemma map_repeat {A B} (g : A -> B) a n : map g (repeat a n) = repeat (g a) n.
Proof. induction n as [|n IH]; [reflexivity|]. cbn. rewrite IH. reflexivity. Qed.
Lemma Forall_firstn {A} (P : A -> Prop) l : forall n, Forall P l -> Forall P (firstn n l).
Proof. intros n H. rewrite <- (firstn_skipn n l) in H. apply Forall_app in H as [H _]. exact H. Qed.
Lemma Forall_skipn {A} (P : A -> Prop) l : forall n, Forall P l -> Forall P (skipn n l).
Proof. intros n H. rewrite <- (firstn_skipn n l) in H. apply Forall_app in H as [_ H]. exact H. Qed.

Section Shape.
  Context (f : pystr -> pystr) (N : list pystr) (Hf : renaming f N) (Hu : f [c_under] = [c_under]) (Hn : In [c_under] N).

  Definition rename_axis (a : axis) : axis := match a with AxName s => AxName (f s) | AxAnon k v => AxAnon k v end.
  Definition rename_comp (c : comp) : comp := match c with CGrp l => CGrp (map rename_axis l) | CEll => CEll end.

  Lemma is_ell_rename a : (forall s, a = AName s -> In s N) -> is_ell (rename_atom f a) = is_ell a.
  Proof.
    intros H. destruct a as [s|n|]; try reflexivity. cbn [rename_atom is_ell]. destruct Hf as [He Hi].
    destruct (str_eqb s ell_name) eqn:E.
    - apply str_eqb_eq' in E. subst. apply str_eqb_eq'. exact He.
    - destruct (str_eqb (f s) ell_name) eqn:E'; [|reflexivity]. apply str_eqb_eq' in E'. rewrite <- He in E'.
      apply Hi in E'; [|right; apply H; reflexivity|left; reflexivity]. subst. assert (str_eqb ell_name ell_name = true) by (apply str_eqb_eq'; reflexivity). congruence.
  Qed.
  Lemma atom_axes_rename k a : atom_axes k (rename_atom f a) = map rename_axis (atom_axes k a).
  Proof. destruct a as [s|n|]; cbn; [reflexivity|destruct (n =? 1)%Z; reflexivity|]. unfold ax_ellipsis. cbn. rewrite (proj1 Hf : f ellipsis_str = ellipsis_str). reflexivity. Qed.
  Lemma atoms_axes_rename : forall l k, atoms_axes k (map (rename_atom f) l) = map rename_axis (atoms_axes k l).
  Proof.
    induction l as [|a l IH]; intros k; [reflexivity|]. cbn [map atoms_axes]. rewrite map_app, atom_axes_rename, IH. f_equal. f_equal. f_equal. destruct a; reflexivity.
  Qed.
  Lemma comps_rename : forall e k, (forall s, In (AName s) (atoms e) -> In s N) -> comps k (rename f e) = map rename_comp (comps k e).
  Proof.
    induction e as [|i e IH]; intros k H; [reflexivity|]. cbn [rename map comps]. fold (rename f e).
    assert (Hi : forall s, In (AName s) (item_atoms i) -> In s N) by (intros s Hs; apply H; unfold atoms; cbn [flat_map]; apply in_or_app; left; auto).
    f_equal.
    - destruct i as [a|l]; cbn [on_atoms item_comp].
      + rewrite is_ell_rename by (intros s ->; apply Hi; left; reflexivity). destruct (is_ell a); [reflexivity|]. cbn. rewrite atom_axes_rename. reflexivity.
      + cbn. rewrite atoms_axes_rename. reflexivity.
    - rewrite IH by (intros s Hs; apply H; unfold atoms; cbn [flat_map]; apply in_or_app; right; exact Hs). f_equal. f_equal.
      f_equal. destruct i as [a|l]; cbn [on_atoms item_atoms]; [destruct a; reflexivity|apply nbig_on; intros []; reflexivity].
  Qed.

  Definition names_in (c : comp) : Prop := forall s, In (AxName s) (comp_axes c) -> In s (ell_name :: N).
  Lemma comps_names : forall e k, (forall s, In (AName s) (atoms e) -> In s N) -> Forall names_in (comps k e).
  Proof.
    assert (HA : forall a k s, (forall s, a = AName s -> In s N) -> In (AxName s) (atom_axes k a) -> In s (ell_name :: N)).
    { intros [s0|n|] k s H Hs; cbn in Hs.
      - destruct Hs as [E|[]]. injection E as <-. right. apply H. reflexivity.
      - destruct (n =? 1)%Z; [destruct Hs|]. destruct Hs as [E|[]]. discriminate.
      - destruct Hs as [E|[]]. left. injection E as <-. reflexivity. }
    assert (HAs : forall l k s, (forall s, In (AName s) l -> In s N) -> In (AxName s) (atoms_axes k l) -> In s (ell_name :: N)).
    { induction l as [|a l IH]; intros k s H Hs; [destruct Hs|]. cbn [atoms_axes] in Hs. apply in_app_or in Hs as [Hs|Hs].
      - eapply HA; [|exact Hs]. intros t ->. apply H. left. reflexivity.
      - eapply IH; [|exact Hs]. intros t Ht. apply H. right. exact Ht. }
    induction e as [|i e IH]; intros k H; [constructor|]. cbn [comps]. constructor.
    - assert (Hi : forall s, In (AName s) (item_atoms i) -> In s N) by (intros s Hs; apply H; unfold atoms; cbn [flat_map]; apply in_or_app; left; auto).
      intros s Hs. destruct i as [a|l]; cbn [item_comp] in Hs.
      + destruct (is_ell a); [cbn in Hs; destruct Hs as [E|[]]; left; injection E as <-; reflexivity|].
        eapply HA; [|exact Hs]. intros t ->. apply Hi. left. reflexivity.
      + eapply HAs; [|exact Hs]. exact Hi.
    - apply IH. intros s Hs. apply H. unfold atoms. cbn [flat_map]. apply in_or_app. right. exact Hs.
  Qed.

  Lemma f_eqb s t : In s (ell_name :: N) -> In t (ell_name :: N) -> str_eqb (f s) (f t) = str_eqb s t.
  Proof.
    intros Hs Ht. destruct (str_eqb s t) eqn:E.
    - apply str_eqb_eq' in E. subst. apply str_eqb_eq'. reflexivity.
    - destruct (str_eqb (f s) (f t)) eqn:E'; [|reflexivity]. apply str_eqb_eq' in E'. apply (proj2 Hf) in E'; auto.
      subst. assert (str_eqb t t = true) by (apply str_eqb_eq'; reflexivity). congruence.
  Qed.
  Lemma dict_set_rename s (v : Z) : In s (ell_name :: N) -> forall d, incl (map fst d) (ell_name :: N) ->
    dict_set str_eqb (f s) v (rename_sizes f d) = rename_sizes f (dict_set str_eqb s v d) /\ incl (map fst (dict_set str_eqb s v d)) (ell_name :: N).
  Proof.
    intros Hs. induction d as [|[t w] d IH]; intros Hd.
    - split; [reflexivity|]. intros x [<-|[]]. exact Hs.
    - cbn [rename_sizes map dict_set]. fold (rename_sizes f d). rewrite f_eqb; [|exact Hs|apply Hd; left; reflexivity].
      destruct IH as [IH1 IH2]; [intros x Hx; apply Hd; right; exact Hx|]. destruct (str_eqb s t).
      + split; [reflexivity|exact Hd].
      + split; [cbn [rename_sizes map]; rewrite IH1; reflexivity|]. intros x [<-|Hx]; [apply Hd; left; reflexivity|apply IH2, Hx].
  Qed.

  Let step := fun (result : list (pystr * Z)) '((c, axis_length) : comp * Z) =>
           match cell_axes c with
           | [] => if (axis_length =? 1)%Z then Ok result else Err RuntimeError
           | [AxName s] => if str_eqb s [c_under] then Ok result
                           else Ok (dict_set str_eqb s axis_length result)
           | [AxAnon _ v] => if (v =? axis_length)%Z then Ok result else Err RuntimeError
           | _ => Err ValueError
           end.
  Lemma comp_axes_rename c : comp_axes (rename_comp c) = map rename_axis (comp_axes c).
  Proof. destruct c; cbn; [|reflexivity]. unfold ax_ellipsis. cbn. rewrite (proj1 Hf : f ellipsis_str = ellipsis_str). reflexivity. Qed.
  Lemma cells_rename : forall cs shape d, Forall names_in cs -> incl (map fst d) (ell_name :: N) ->
    foldM step (combine (map rename_comp cs) shape) (rename_sizes f d) = on_ok (rename_sizes f) (foldM step (combine cs shape) d).
  Proof.
    induction cs as [|c cs IH]; intros [|n shape] d Hc Hd; try reflexivity. inversion Hc as [|? ? Hc1 Hc2]; subst. cbn [map combine foldM].
    unfold step at 1 3. cbv beta iota. unfold cell_axes. rewrite comp_axes_rename.
    destruct (comp_axes c) as [|a [|b l]] eqn:Ec; cbn [map].
    - destruct (n =? 1)%Z; cbn [bind]; [apply IH; assumption|reflexivity].
    - destruct a as [s|k v]; cbn [rename_axis].
      + assert (Hs : In s (ell_name :: N)) by (apply Hc1; rewrite Ec; left; reflexivity).
        rewrite <- Hu at 1. rewrite f_eqb; [|exact Hs|right; exact Hn]. destruct (str_eqb s [c_under]); cbn [bind]; [apply IH; assumption|].
        destruct (dict_set_rename s n Hs d Hd) as [E1 E2]. rewrite E1. apply IH; assumption.
      + destruct (v =? n)%Z; cbn [bind]; [apply IH; assumption|reflexivity].
    - destruct a, b; reflexivity.
  Qed.

  Lemma find_cell_rename cs : find_cell (map rename_comp cs) = find_cell cs.
  Proof. induction cs as [|[|l] cs IH]; cbn; [reflexivity|reflexivity|rewrite IH; reflexivity]. Qed.
  Lemma composed_rename cs : existsb (fun c => match c with CGrp l => 1 <? length l | CEll => false end) (map rename_comp cs) =
    existsb (fun c => match c with CGrp l => 1 <? length l | CEll => false end) cs.
  Proof. induction cs as [|[|l] cs IH]; cbn [map rename_comp existsb]; [reflexivity|exact IH|rewrite map_length, IH; reflexivity]. Qed.

  Lemma parse_shape_rename U (HU : unicode_ok U) p p' e shape : written_as U true false p e -> written_as U true false p' (rename f e) ->
    incl (keys e) N -> parse_shape U shape p' = on_ok (rename_sizes f) (parse_shape U shape p).
  Proof.
    intros Hp Hp' HN. unfold parse_shape.
    assert (E : parse_expression U true false 0 p = Ok (compile 0 e)) by (apply (parse_expression_iff U HU); eauto).
    assert (E' : parse_expression U true false 0 p' = Ok (compile 0 (rename f e))) by (apply (parse_expression_iff U HU); eauto).
    rewrite E, E'. unfold compile. cbn [bind p_composition p_has_ellipsis]. unfold has_composed_axes. cbn [p_composition].
    assert (HA : forall s, In (AName s) (atoms e) -> In s N).
    { intros s Hs. apply HN. unfold keys. apply in_flat_map. exists (AName s). split; [exact Hs|left; reflexivity]. }
    rewrite (comps_rename e 0 HA), composed_rename, map_length, find_cell_rename. rewrite rename_dots.
    assert (HC := comps_names e 0 HA). set (cs := comps 0 e) in *.
    destruct (existsb _ cs); [reflexivity|]. cbn [raise_if bind].
    destruct (length shape =? length cs).
    - cbn [bind]. destruct (has_dots e).
      + destruct (find_cell cs) as [k|]; [|reflexivity]. cbn [of_option bind].
        change (@nil (pystr * Z)) with (rename_sizes f []) at 1.
        assert (Q : firstn k (map rename_comp cs) ++ repeat underscore (length shape + 1 - length cs) ++ skipn (S k) (map rename_comp cs) =
                    map rename_comp (firstn k cs ++ repeat underscore (length shape + 1 - length cs) ++ skipn (S k) cs)).
        { rewrite !map_app, firstn_map, skipn_map. f_equal. f_equal. rewrite map_repeat. cbn. rewrite Hu. reflexivity. }
        rewrite Q. apply cells_rename; [|intros x []]. apply Forall_app. split; [apply Forall_firstn, HC|]. apply Forall_app. split; [|apply Forall_skipn, HC].
        apply Forall_forall. intros c Hc. apply repeat_spec in Hc. subst c. intros s [Es|[]]. injection Es as <-. right. exact Hn.
      + cbn [bind]. change (@nil (pystr * Z)) with (rename_sizes f []) at 1. apply cells_rename; [exact HC|intros x []].
    - destruct (has_dots e); [|reflexivity]. destruct (length shape <? length cs - 1); [reflexivity|]. cbn [raise_if bind].
      destruct (find_cell cs) as [k|]; [|reflexivity]. cbn [of_option bind].
      change (@nil (pystr * Z)) with (rename_sizes f []) at 1.
      assert (Q : firstn k (map rename_comp cs) ++ repeat underscore (length shape + 1 - length cs) ++ skipn (S k) (map rename_comp cs) =
                  map rename_comp (firstn k cs ++ repeat underscore (length shape + 1 - length cs) ++ skipn (S k) cs)).
      { rewrite !map_app, firstn_map, skipn_map. f_equal. f_equal. rewrite map_repeat. cbn. rewrite Hu. reflexivity. }
      rewrite Q. apply cells_rename; [|intros x []]. apply Forall_app. split; [apply Forall_firstn, HC|]. apply Forall_app. split; [|apply Forall_skipn, HC].
      apply Forall_forall. intros c Hc. apply repeat_spec in Hc. subst c. intros s [Es|[]]. injection Es as <-. right. exact Hn.
  Qed.
End Shape.

Lemma pack_names {A} (r : runtime A) p p' before after before' after' : runtime_ok r ->
  pack_pattern (rt_unicode r) p before after -> pack_pattern (rt_unicode r) p' before' after' ->
  length before' = length before -> length after' = length after ->
  (forall xs, pack r xs p' = pack r xs p) /\ (forall x ps, unpack r x ps p' = unpack r x ps p).
Proof.
  intros Hok H H' E1 E2. pose proof (ro_unicode _ Hok) as HU. split; intros; unfold pack, unpack, pack_with, unpack_with, pack_given, unpack_given.
  - rewrite (analyze_ok _ p _ _ HU H), (analyze_ok _ p' _ _ HU H'), E1, E2. reflexivity.
  - rewrite (analyze_ok _ p _ _ HU H), (analyze_ok _ p' _ _ HU H'), E1, E2. reflexivity.
Qed.
