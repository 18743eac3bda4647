(** * What programs do to objects *)
From Verif Require Import Py Tensor Parsing Recipe Ops Backends Api Packing Einsum ParseFacts Cache CacheFacts Heap.

Lemma hbind_eq {D X Y} (m : HM D X) (k : X -> HM D Y) h :
  hbind m k h = match m h with (Ok x, h') => k x h' | (Err e, h') => (Err e, h') end.
Proof. reflexivity. Qed.
Lemma only_new_refl {D} (h : heap D) : only_new h h.
Proof. exists []. now rewrite app_nil_r. Qed.
Lemma only_new_trans {D} (h1 h2 h3 : heap D) : only_new h1 h2 -> only_new h2 h3 -> only_new h1 h3.
Proof. intros [a ->] [b ->]. exists (a ++ b). now rewrite app_assoc. Qed.
Lemma only_new_app {D} (h t : heap D) : only_new h (h ++ t).
Proof. now exists t. Qed.
Lemma kept {D} (h h' : heap D) l o : only_new h h' -> nth_error h l = Some o -> nth_error h' l = Some o.
Proof. intros [t ->] E. rewrite nth_error_app1; [exact E|]. apply nth_error_Some. congruence. Qed.

Lemma Forall2_imp {A B} (P Q : A -> B -> Prop) l m : (forall a b, P a b -> Q a b) -> Forall2 P l m -> Forall2 Q l m.
Proof. intros H F. induction F; constructor; auto. Qed.
Lemma Forall2_size {A B} (P : A -> B -> Prop) l m : Forall2 P l m -> length l = length m.
Proof. induction 1; cbn; congruence. Qed.
Lemma recipe_kept {D} (O : dim_ops D) h h' r rc : only_new h h' -> recipe_at O h r rc -> recipe_at O h' r rc.
Proof.
  intros K (H1 & H2 & (ps & H3 & H3') & H4 & H5 & H6 & gs & H7 & H7').
  repeat split; eauto using kept.
  - exists ps. split; [eauto using kept|]. eapply Forall2_imp; [|exact H3']; cbn; intros a b [X Y]. split; eauto using kept.
  - exists gs. split; [eauto using kept|]. eapply Forall2_imp; [|exact H7']; cbn; intros a b X. eauto using kept.
Qed.

Lemma opt_kept {D X} (h h' : heap D) (sort : X -> obj D) l x : only_new h h' -> opt_at h sort l x -> opt_at h' sort l x.
Proof. intros K. destruct l, x; cbn; eauto using kept. Qed.
Lemma cooked_kept {D} (h h' : heap D) k c : only_new h h' -> cooked_at h k c -> cooked_at h' k c.
Proof. intros K (H1 & H2 & H3 & H4 & H5 & H6). repeat split; eauto using kept, opt_kept. Qed.

(** ** Making a recipe *)
Section Make.
  Context {D : Type} (O : dim_ops D).
  Definition makes {X Y} (m : HM D X) (y : Y) (P : heap D -> X -> Y -> Prop) : Prop :=
    forall h, exists x h', m h = (Ok x, h') /\ only_new h h' /\ P h' x y.
  Lemma last_object (h : heap D) o : nth_error (h ++ [o]) (length h) = Some o.
  Proof. rewrite nth_error_app2, Nat.sub_diag; [reflexivity|lia]. Qed.
  Lemma hmapM_makes {X Y} (f : Y -> HM D X) (P : heap D -> X -> Y -> Prop) l :
    (forall h h' x y, only_new h h' -> P h x y -> P h' x y) -> (forall y, makes (f y) y P) ->
    makes (hmapM f l) l (fun h => Forall2 (P h)).
  Proof.
    intros M F. induction l as [|y l IH]; intros h.
    - exists [], h. split; [reflexivity|]. split; [apply only_new_refl|constructor].
    - destruct (F y h) as (x & h1 & E1 & K1 & P1). destruct (IH h1) as (xs & h2 & E2 & K2 & P2).
      exists (x :: xs), h2. cbn. unfold hbind. rewrite E1, E2. split; [reflexivity|].
      split; [eapply only_new_trans; eauto|]. constructor; eauto.
  Qed.

  Lemma hp_recipe_spec rc : makes (hp_recipe O rc) rc (recipe_at O).
  Proof.
    intros h. unfold hp_recipe, hbind at 1, alloc at 1.
    set (h1 := h ++ [_]). unfold hbind at 1, alloc at 1. set (h2 := h1 ++ [_]).
    unfold hbind at 1.
    destruct (hmapM_makes (fun '(k, u) => let! k := alloc (ONats k) in let! u := alloc (ONats u) in hret (k, u))
                (fun h (p : loc * loc) (x : list nat * list nat) => nth_error h (fst p) = Some (ONats (fst x)) /\ nth_error h (snd p) = Some (ONats (snd x)))
                (r_input rc)) with (h := h2) as (ps & h3 & E3 & K3 & P3).
    { intros g g' x y K [A B]. split; eauto using kept. }
    { intros [k u] g. exists (length g, length (g ++ [ONats k])), ((g ++ [ONats k]) ++ [ONats u]). split; [reflexivity|].
      split; [eapply only_new_trans; apply only_new_app|]. cbn. split; [|apply last_object].
      eapply kept; [apply only_new_app|apply last_object]. }
    rewrite E3. clear E3. unfold hbind at 1, alloc at 1. set (h4 := h3 ++ [_]).
    unfold hbind at 1, alloc at 1. set (h5 := h4 ++ [_]). unfold hbind at 1, alloc at 1. set (h6 := h5 ++ [_]).
    unfold hbind at 1.
    destruct (hmapM_makes (fun g : list nat => alloc (ONats g)) (fun (h : heap D) g x => nth_error h g = Some (ONats x)) (r_output rc)) with (h := h6) as (gs & h7 & E7 & K7 & P7).
    { intros g g' x y K A. eauto using kept. }
    { intros x g. exists (length g), (g ++ [ONats x]). split; [reflexivity|]. split; [apply only_new_app|apply last_object]. }
    rewrite E7. clear E7. unfold hbind, alloc, hret. set (h8 := h7 ++ [_]).
    assert (K01 : only_new h h1) by apply only_new_app. assert (K12 : only_new h1 h2) by apply only_new_app.
    assert (K34 : only_new h3 h4) by apply only_new_app. assert (K45 : only_new h4 h5) by apply only_new_app.
    assert (K56 : only_new h5 h6) by apply only_new_app. assert (K78 : only_new h7 h8) by apply only_new_app.
    assert (K68 : only_new h6 h8) by eauto using only_new_trans. assert (K58 : only_new h5 h8) by eauto using only_new_trans.
    assert (K48 : only_new h4 h8) by eauto using only_new_trans. assert (K38 : only_new h3 h8) by eauto using only_new_trans.
    assert (K28 : only_new h2 h8) by eauto using only_new_trans. assert (K18 : only_new h1 h8) by eauto using only_new_trans.
    eexists _, h8. split; [reflexivity|]. split; [eauto using only_new_trans|].
    split; [|split; [|split; [|split; [|split; [|split]]]]]; cbn [h_elementary h_name2elem h_input h_perm h_first_reduced h_added h_output].
    - eapply kept; [exact K18|]. apply last_object.
    - eapply kept; [exact K28|]. apply last_object.
    - exists ps. split; [eapply kept; [exact K48|]; apply last_object|].
      eapply Forall2_imp; [|exact P3]. cbn. intros a b [X Y]. split; eauto using kept.
    - eapply kept; [exact K58|]. apply last_object.
    - reflexivity.
    - eapply kept; [exact K68|]. apply last_object.
    - exists gs. split; [apply last_object|]. eapply Forall2_imp; [|exact P7]. cbn. intros a b X. eauto using kept.
  Qed.
End Make.

(** ** [_reconstruct_from_shape_uncached] *)
Section Reconstruct.
  Context {D : Type} (O : dim_ops D) (h : heap D).
  Lemma load_old {X} (sort : obj D -> option X) l o x t : nth_error h l = Some o -> sort o = Some x ->
    load sort l (h ++ t) = (Ok x, h ++ t).
  Proof. intros E S. unfold load. rewrite (kept _ _ _ _ (only_new_app h t) E), S. reflexivity. Qed.
  Lemma nats_old l x t : nth_error h l = Some (ONats x) -> load_nats l (h ++ t) = (Ok x, h ++ t).
  Proof. intros E. exact (load_old _ _ _ _ _ E eq_refl). Qed.
  Lemma names_old l x t : nth_error h l = Some (ONames x) -> load_names l (h ++ t) = (Ok x, h ++ t).
  Proof. intros E. exact (load_old _ _ _ _ _ E eq_refl). Qed.
  Lemma lens_old l x t : nth_error h l = Some (OLens x) -> load_lens l (h ++ t) = (Ok x, h ++ t).
  Proof. intros E. exact (load_old _ _ _ _ _ E eq_refl). Qed.
  Lemma pairs_old l x t : nth_error h l = Some (OPairs x) -> load_pairs l (h ++ t) = (Ok x, h ++ t).
  Proof. intros E. exact (load_old _ _ _ _ _ E eq_refl). Qed.
  Lemma lists_old l x t : nth_error h l = Some (OLists x) -> load_lists l (h ++ t) = (Ok x, h ++ t).
  Proof. intros E. exact (load_old _ _ _ _ _ E eq_refl). Qed.
  Lemma positions_old l x t : nth_error h l = Some (OPositions x) -> load_positions l (h ++ t) = (Ok x, h ++ t).
  Proof. intros E. exact (load_old _ _ _ _ _ E eq_refl). Qed.
  Lemma lengths_old l x t : nth_error h l = Some (OLengths x) -> load_lengths l (h ++ t) = (Ok x, h ++ t).
  Proof. intros E. exact (load_old _ _ _ _ _ E eq_refl). Qed.
  Lemma at_end o (t : heap D) : nth_error (h ++ o :: t) (length h) = Some o.
  Proof. rewrite nth_error_app2, Nat.sub_diag; [reflexivity|lia]. Qed.
  Lemma load_end al t : load_lens (length h) (h ++ OLens al :: t) = (Ok al, h ++ OLens al :: t).
  Proof. unfold load_lens, load. now rewrite at_end. Qed.
  Lemma getitem_end al t i : getitem (length h) i (h ++ OLens al :: t) = (list_get al i, h ++ OLens al :: t).
  Proof. unfold getitem, hbind. rewrite load_end. reflexivity. Qed.
  Lemma upd_end (o o' : obj D) t : list_upd (h ++ o :: t) (length h) o' = Ok (h ++ o' :: t).
  Proof. induction h as [|x h' IH]; [reflexivity|]. cbn. rewrite IH. reflexivity. Qed.
  Lemma setitem_end al t i d : setitem (length h) i d (h ++ OLens al :: t) =
    match list_upd al i d with Ok al' => (Ok tt, h ++ OLens al' :: t) | Err e => (Err e, h ++ OLens al :: t) end.
  Proof.
    unfold setitem, hbind, lift, store. rewrite load_end. destruct (list_upd al i d); [|reflexivity]. now rewrite upd_end.
  Qed.
  Lemma append_end al t d : append (length h) d (h ++ OLens al :: t) = (Ok tt, h ++ OLens (al ++ [d]) :: t).
  Proof. unfold append, hbind, store. rewrite load_end. now rewrite upd_end. Qed.
  Lemma hmapM_reads {X Y} (f : X -> HM D Y) (g : X -> result Y) l h' :
    (forall x, f x h' = (g x, h')) -> hmapM f l h' = (mapM g l, h').
  Proof.
    intros E. induction l as [|x l IH]; [reflexivity|]. cbn. unfold hbind. rewrite E. destruct (g x); [|reflexivity].
    rewrite IH. cbn. destruct (mapM g l); reflexivity.
  Qed.

  Lemma infer_step_spec shape al need i (p : loc * loc) x :
    nth_error h (fst p) = Some (ONats (fst x)) /\ nth_error h (snd p) = Some (ONats (snd x)) ->
    hp_infer_step O shape (length h) need (i, p) (h ++ [OLens al]) =
    match infer_step O shape (al, need) (i, x) with
    | Ok (al', need') => (Ok need', h ++ [OLens al'])
    | Err e => (Err e, h ++ [OLens al])
    end.
  Proof.
    destruct p as [kn un], x as [known unknown]. cbn [fst snd]. intros [E1 E2]. unfold hp_infer_step, infer_step.
    unfold hbind at 1, lift at 1. destruct (list_get shape i) as [len|e]; [|reflexivity]. cbn [bind].
    unfold hbind at 1. rewrite (nats_old _ _ _ E1).
    unfold hbind at 1. rewrite (nats_old _ _ _ E2).
    assert (G : forall known, 
      (let! ks := hmapM (getitem (length h)) known in
       let! _ := match unknown with
          | [] => match both_ints O len (fold_left (d_mul O) ks (d_of_Z O 1)) with
                  | Some (l, k) => if (l =? k)%Z then hret tt else lift (Err EinopsError)
                  | None => hret tt end
          | u :: _ =>
              let! _ := match both_ints O len (fold_left (d_mul O) ks (d_of_Z O 1)) with
                        | Some (l, k) => if (k =? 0)%Z then lift (Err ZeroDivisionError)
                                         else lift (raise_if (negb (l mod k =? 0)%Z) EinopsError)
                        | None => hret tt end in
              let! q := lift (d_floordiv O len (fold_left (d_mul O) ks (d_of_Z O 1))) in
              setitem (length h) u q
          end in
        hret (if length known + length unknown =? 1 then need else true)) (h ++ [OLens al]) =
      match (let* ks := mapM (list_get al) known in
             let* al := match unknown with
               | [] => match both_ints O len (fold_left (d_mul O) ks (d_of_Z O 1)) with
                       | Some (l, k) => if (l =? k)%Z then Ok al else Err EinopsError
                       | None => Ok al end
               | u :: _ =>
                   let* _ := match both_ints O len (fold_left (d_mul O) ks (d_of_Z O 1)) with
                             | Some (l, k) => if (k =? 0)%Z then Err ZeroDivisionError
                                              else raise_if (negb (l mod k =? 0)%Z) EinopsError
                             | None => Ok tt end in
                   let* q := d_floordiv O len (fold_left (d_mul O) ks (d_of_Z O 1)) in
                   list_upd al u q
               end in
             Ok (al, if length known + length unknown =? 1 then need else true)) with
      | Ok (al', need') => (Ok need', h ++ [OLens al'])
      | Err e => (Err e, h ++ [OLens al])
      end).
    { intros ks0. unfold hbind at 1. rewrite (hmapM_reads _ (list_get al)); [|intros; apply getitem_end].
      destruct (mapM (list_get al) ks0) as [ks|]; [|reflexivity]. cbn [bind].
      set (kp := fold_left (d_mul O) ks (d_of_Z O 1)). clearbody kp. unfold hbind at 1.
      destruct unknown as [|u us].
      - destruct (both_ints O len kp) as [[l k]|]; [|reflexivity]. destruct (l =? k)%Z; reflexivity.
      - unfold hbind, lift, hret.
        destruct (both_ints O len kp) as [[l k]|].
        + destruct (k =? 0)%Z; [reflexivity|]. destruct (raise_if _ _) as [[]|]; [|reflexivity]. cbn [bind].
          destruct (d_floordiv O len kp); [|reflexivity]. cbn [bind]. rewrite setitem_end. destruct (list_upd al u _); reflexivity.
        + cbn [bind]. destruct (d_floordiv O len kp); [|reflexivity]. cbn [bind]. rewrite setitem_end. destruct (list_upd al u _); reflexivity. }
    destruct known as [|k0 known]; [|apply (G (k0 :: known))].
    destruct unknown as [|u [|u' us]]; [apply (G [])| |apply (G [])].
    unfold hbind. rewrite setitem_end. destruct (list_upd al u len); reflexivity.
  Qed.

  Lemma infer_spec shape (ps : list (loc * loc)) xs : 
    Forall2 (fun p x => nth_error h (fst p) = Some (ONats (fst x)) /\ nth_error h (snd p) = Some (ONats (snd x))) ps xs ->
    forall i al need,
    match foldM (infer_step O shape) (enumerate_from i xs) (al, need) with
    | Ok (al', need') => hfoldM (hp_infer_step O shape (length h)) (enumerate_from i ps) need (h ++ [OLens al]) = (Ok need', h ++ [OLens al'])
    | Err e => exists al', hfoldM (hp_infer_step O shape (length h)) (enumerate_from i ps) need (h ++ [OLens al]) = (Err e, h ++ [OLens al'])
    end.
  Proof.
    intros F. induction F as [|p x ps xs Hp F IH]; intros i al need; [reflexivity|].
    cbn [enumerate_from foldM hfoldM]. unfold hbind. rewrite (infer_step_spec shape al need i p x Hp).
    destruct (infer_step O shape (al, need) (i, x)) as [[al' need']|e]; cbn [bind]; [apply IH|]. now exists al.
  Qed.

  Lemma assign_step names l n d al : nth_error h l = Some (ONames names) ->
    (let! names := load_names l in
     let! p := lift (of_option KeyError (dict_get str_eqb n names)) in
     setitem (length h) p d) (h ++ [OLens al]) =
    match (let* p := of_option KeyError (dict_get str_eqb n names) in list_upd al p d) with
    | Ok al' => (Ok tt, h ++ [OLens al'])
    | Err e => (Err e, h ++ [OLens al])
    end.
  Proof.
    intros E. unfold hbind. rewrite (names_old _ _ _ E). unfold lift.
    destruct (of_option KeyError (dict_get str_eqb n names)) as [p|e]; cbn [bind]; [apply setitem_end|reflexivity].
  Qed.
  Lemma assign_spec names l dims : nth_error h l = Some (ONames names) -> forall al,
    let prog := hfoldM (fun _ '(axis, dim) =>
                        let! names := load_names l in
                        let! p := lift (of_option KeyError (dict_get str_eqb axis names)) in
                        setitem (length h) p dim) dims tt in
    match foldM (fun al '(name, dim) =>
               let* p := of_option KeyError (dict_get str_eqb name names) in
               list_upd al p dim) dims al with
    | Ok al' => prog (h ++ [OLens al]) = (Ok tt, h ++ [OLens al'])
    | Err e => exists al', prog (h ++ [OLens al]) = (Err e, h ++ [OLens al'])
    end.
  Proof.
    intros E. cbn zeta. induction dims as [|[n d] dims IH]; intros al; [reflexivity|]. cbn [foldM hfoldM].
    rewrite hbind_eq, (assign_step names l n d al E).
    destruct (of_option KeyError (dict_get str_eqb n names)) as [p|e]; cbn [bind]; [|now exists al].
    destruct (list_upd al p d) as [al'|e]; cbn [bind]; [apply IH|now exists al].
  Qed.
End Reconstruct.

Section Output.
  Context {D : Type} (O : dim_ops D) (h : heap D) (a : loc) (al : list D).
  Hypothesis Ha : nth_error h a = Some (OLens al).
  Lemma getitem_old t i : getitem a i (h ++ t) = (list_get al i, h ++ t).
  Proof. unfold getitem. rewrite hbind_eq, (lens_old h _ _ _ Ha). reflexivity. Qed.
  Lemma output_spec (gs : list loc) xs : Forall2 (fun g x => nth_error h g = Some (ONats x)) gs xs -> forall fin need,
    let prog := hfoldM (fun need grouping =>
                let! axes := load_nats grouping in
                let! lengths := hmapM (getitem a) axes in
                let! _ := append (length h) (product O lengths) in
                hret (if length lengths =? 1 then need else true)) gs need (h ++ [OLens fin]) in
    match mapM (mapM (list_get al)) xs with
    | Ok groups => prog = (Ok (if existsb (fun g => negb (length g =? 1)) groups then true else need), h ++ [OLens (fin ++ map (product O) groups)])
    | Err e => exists fin', prog = (Err e, h ++ [OLens fin'])
    end.
  Proof.
    intros F. cbn zeta. induction F as [|g x gs xs Hg F IH]; intros fin need; [cbn; now rewrite app_nil_r|].
    cbn [mapM hfoldM]. rewrite hbind_eq.
    assert (E : (let! axes := load_nats g in
                let! lengths := hmapM (getitem a) axes in
                let! _ := append (length h) (product O lengths) in
                hret (if length lengths =? 1 then need else true)) (h ++ [OLens fin]) =
              match mapM (list_get al) x with
              | Ok ls => (Ok (if length ls =? 1 then need else true), h ++ [OLens (fin ++ [product O ls])])
              | Err e => (Err e, h ++ [OLens fin])
              end).
    { rewrite hbind_eq, (nats_old h _ _ _ Hg), hbind_eq, (hmapM_reads _ (list_get al)) by (intros; apply getitem_old).
      destruct (mapM (list_get al) x) as [ls|]; [|reflexivity]. rewrite hbind_eq, append_end. reflexivity. }
    rewrite E. destruct (mapM (list_get al) x) as [ls|e]; cbn [bind]; [|now exists fin].
    specialize (IH (fin ++ [product O ls]) (if length ls =? 1 then need else true)).
    destruct (mapM (mapM (list_get al)) xs) as [groups|e]; cbn [bind]; [|exact IH].
    rewrite IH. cbn. rewrite <- app_assoc. cbn. f_equal. f_equal.
    destruct (length ls =? 1), (existsb _ groups); reflexivity.
  Qed.
End Output.

Section Whole.
  Context {D : Type} (O : dim_ops D).
  Theorem reconstruct_heap h r rc shape dims : recipe_at O h r rc ->
    let '(v, h') := hp_reconstruct O r shape dims h in
    only_new h h' /\
    match v with
    | Ok k => exists c, reconstruct O rc shape dims = Ok c /\ cooked_at h' k c
    | Err e => reconstruct O rc shape dims = Err e
    end.
  Proof.
    intros (H1 & H2 & (ps & H3 & H3') & H4 & H5 & H6 & gs & H7 & H7').
    unfold hp_reconstruct, reconstruct. unfold copy_list.
    rewrite hbind_eq, hbind_eq.
    assert (E0 : load_lens (h_elementary r) h = (Ok (map (d_of_Z O) (r_elementary rc)), h)).
    { pose proof (lens_old h _ _ [] H1) as E. now rewrite app_nil_r in E. }
    rewrite E0. clear E0. unfold alloc at 1. cbv beta iota.
    rewrite hbind_eq. 
    pose proof (assign_spec h (r_name2elem rc) (h_name2elem r) dims H2 (map (d_of_Z O) (r_elementary rc))) as A. cbn zeta in A.
    destruct (foldM _ dims _) as [al0|e]; cbn [bind].
    2:{ destruct A as [al' A]. rewrite A. split; [apply only_new_app|reflexivity]. }
    rewrite A. clear A. rewrite hbind_eq, (pairs_old h _ _ _ H3). unfold enumerate. cbv beta iota. rewrite hbind_eq.
    pose proof (infer_spec O h shape ps (r_input rc) H3' 0 al0 false) as A.
    destruct (foldM _ (enumerate_from 0 (r_input rc)) _) as [[al need]|e]; cbn [bind].
    2:{ destruct A as [al' A]. rewrite A. split; [apply only_new_app|reflexivity]. }
    rewrite A. clear A. rewrite hbind_eq, (nats_old h _ _ _ H4), hbind_eq.
    set (init := if need then Some (firstn (length (r_perm rc)) al) else None).
    assert (I : exists hb il, (if need
      then let! l := load_lens (length h) in let! s := alloc (OLens (firstn (length (r_perm rc)) l)) in hret (Some s)
      else hret None) (h ++ [OLens al]) = (Ok il, hb) /\ only_new h hb /\ nth_error hb (length h) = Some (OLens al) /\ opt_at hb OLens il init).
    { destruct need.
      - exists ((h ++ [OLens al]) ++ [OLens (firstn (length (r_perm rc)) al)]), (Some (length (h ++ [OLens al]))).
        split; [|split; [|split]].
        + rewrite hbind_eq, load_end. reflexivity.
        + eapply only_new_trans; apply only_new_app.
        + eapply kept; [apply only_new_app|apply last_object].
        + apply last_object.
      - exists (h ++ [OLens al]), None. split; [reflexivity|]. split; [apply only_new_app|]. split; [apply last_object|exact I]. }
    destruct I as (hb & il & E & Kb & Hal & Hil). rewrite E. clear E.
    rewrite hbind_eq. unfold alloc at 1. cbv beta iota. rewrite hbind_eq, (lists_old hb _ _ _ (kept _ _ _ _ Kb H7)), hbind_eq.
    pose proof (output_spec O hb (length h) al Hal gs (r_output rc)) as A.
    specialize (A (Forall2_imp _ _ _ _ (fun g x Hg => kept _ _ _ _ Kb Hg) H7') [] false). cbn zeta in A.
    destruct (mapM (mapM (list_get al)) (r_output rc)) as [groups|e]; cbn [bind].
    2:{ destruct A as [fin' A]. rewrite A. split; [eapply only_new_trans; [exact Kb|apply only_new_app]|reflexivity]. }
    rewrite A. clear A. cbn [app].
    rewrite hbind_eq, (positions_old hb _ _ _ (kept _ _ _ _ Kb H6)), hbind_eq.
    set (hc := hb ++ [OLens (map (product O) groups)]).
    rewrite (hmapM_reads _ (fun '(p, e) => let* l := list_get al e in Ok (p, l))).
    2:{ intros [p e]. unfold hc. rewrite hbind_eq, (getitem_old hb _ _ Hal). destruct (list_get al e); reflexivity. }
    destruct (mapM _ (r_added rc)) as [added|e]; cbn [bind].
    2:{ split; [eapply only_new_trans; [exact Kb|apply only_new_app]|reflexivity]. }
    rewrite hbind_eq. unfold alloc at 1. rewrite hbind_eq. unfold alloc at 1. unfold hret.
    set (hd := hc ++ [_]). set (he := hd ++ [_]).
    assert (Kbc : only_new hb hc) by apply only_new_app. assert (Kcd : only_new hc hd) by apply only_new_app.
    assert (Kde : only_new hd he) by apply only_new_app. assert (Kbe : only_new hb he) by eauto using only_new_trans.
    assert (Khe : only_new h he) by eauto using only_new_trans.
    split; [exact Khe|]. eexists. split; [reflexivity|].
    split; [|split; [|split; [|split; [|split]]]]; cbn [hk_init hk_reorder hk_reduced hk_added hk_final hk_naxes k_init k_reorder k_reduced k_added k_final k_naxes].
    - eapply opt_kept; [exact Kbe|exact Hil].
    - destruct (list_eq_dec _ _ _); [exact I|]. cbn. eapply kept; [exact Khe|exact H4].
    - rewrite <- H5. apply last_object.
    - eapply kept; [exact Kde|apply last_object].
    - destruct (existsb _ groups); [|exact I]. cbn. eapply kept; [|apply (last_object hb)]. eauto using only_new_trans.
    - reflexivity.
  Qed.

  (** ** Applying *)
  Lemma opt_load_at {X} (f : loc -> HM D X) (sort : X -> obj D) h l x :
    (forall l x, nth_error h l = Some (sort x) -> f l h = (Ok x, h)) -> opt_at h sort l x -> opt_load f l h = (Ok x, h).
  Proof. intros F. destruct l, x; cbn; try easy. intros E. rewrite hbind_eq, (F _ _ E). reflexivity. Qed.
  Lemma lens_at (h : heap D) l x : nth_error h l = Some (OLens x) -> load_lens l h = (Ok x, h).
  Proof. intros E. pose proof (lens_old h _ _ [] E) as A. now rewrite app_nil_r in A. Qed.
  Lemma nats_at (h : heap D) l x : nth_error h l = Some (ONats x) -> load_nats l h = (Ok x, h).
  Proof. intros E. pose proof (nats_old h _ _ [] E) as A. now rewrite app_nil_r in A. Qed.
  Lemma lengths_at (h : heap D) l x : nth_error h l = Some (OLengths x) -> load_lengths l h = (Ok x, h).
  Proof. intros E. pose proof (lengths_old h _ _ [] E) as A. now rewrite app_nil_r in A. Qed.

  Lemma apply_heap {T} (B : backend T D) h k c tensor red red' : cooked_at h k c -> calls red red' ->
    hp_apply B k tensor red h = (apply_cooked B c tensor red', h).
  Proof.
    intros (H1 & H2 & H3 & H4 & H5 & H6) R. unfold hp_apply, apply_cooked.
    rewrite hbind_eq, (opt_load_at _ OLens h _ _ (lens_at h) H1), hbind_eq. unfold lift at 1.
    destruct (match k_init c with Some _ => _ | None => _ end) as [t1|]; cbn [bind]; [|reflexivity].
    rewrite hbind_eq, (opt_load_at _ ONats h _ _ (nats_at h) H2), hbind_eq. unfold lift at 1.
    destruct (match k_reorder c with Some _ => _ | None => _ end) as [t2|]; cbn [bind]; [|reflexivity].
    rewrite hbind_eq, (nats_at _ _ _ H3), hbind_eq.
    assert (E : match k_reduced c with [] => hret t2 | _ => hp_reduce_axes B t2 red (hk_reduced k) end h =
                (match k_reduced c with [] => Ok t2 | _ => reduce_axes B t2 red' (k_reduced c) end, h)).
    { assert (E : hp_reduce_axes B t2 red (hk_reduced k) h = (reduce_axes B t2 red' (k_reduced c), h)).
      { unfold hp_reduce_axes. rewrite hbind_eq, (nats_at _ _ _ H3). destruct red as [s|f], red' as [s'|g]; cbn in R; try contradiction.
        - now subst s'.
        - rewrite R. reflexivity. }
      destruct (k_reduced c); [reflexivity|exact E]. }
    rewrite E. destruct (match k_reduced c with [] => Ok t2 | _ => _ end) as [t3|]; cbn [bind]; [|reflexivity].
    rewrite hbind_eq, (lengths_at _ _ _ H4), hbind_eq. unfold lift at 1. rewrite H6.
    destruct (match k_added c with [] => _ | _ => _ end) as [t4|]; cbn [bind]; [|reflexivity].
    rewrite hbind_eq, (opt_load_at _ OLens h _ _ (lens_at h) H5). reflexivity.
  Qed.
End Whole.

Lemma apply_array_api_heap {A} (r : runtime A) h k c tensor red red' : cooked_at h k c -> calls red red' ->
  hp_apply_array_api r k tensor red h = (apply_cooked_array_api (rt_ns r) c tensor red', h).
Proof.
  intros (H1 & H2 & H3 & H4 & H5 & H6) R. unfold hp_apply_array_api, apply_cooked_array_api.
  rewrite hbind_eq, (opt_load_at _ OLens h _ _ (lens_at h) H1), hbind_eq. unfold lift at 1.
  destruct (match k_init c with Some _ => _ | None => _ end) as [t1|]; cbn [bind]; [|reflexivity].
  rewrite hbind_eq, (opt_load_at _ ONats h _ _ (nats_at h) H2), hbind_eq. unfold lift at 1.
  destruct (match k_reorder c with Some _ => _ | None => _ end) as [t2|]; cbn [bind]; [|reflexivity].
  rewrite hbind_eq, (nats_at _ _ _ H3), hbind_eq.
  match goal with |- match ?m h with _ => _ end = (bind ?m' _, _) => assert (E : m h = (m', h)) end.
  { destruct (k_reduced c); [reflexivity|]. destruct red as [s|f], red' as [s'|g]; cbn in R; try contradiction.
    - now subst s'.
    - apply R. }
  rewrite E. destruct (match k_reduced c with [] => Ok t2 | _ => _ end) as [t3|]; cbn [bind]; [|reflexivity].
  rewrite hbind_eq, (lengths_at _ _ _ H4), hbind_eq. unfold lift at 1.
  match goal with |- match ?m with _ => _ end = (bind ?m' _, _) =>
    assert (E4 : m = m') by (destruct (k_added c); reflexivity); rewrite E4; destruct m' as [t4|]; cbn [bind]; [|reflexivity] end.
  rewrite hbind_eq, (opt_load_at _ OLens h _ _ (lens_at h) H5). reflexivity.
Qed.

(** ** The caches *)
Definition agrees {D X Y} (P : heap D -> X -> Y -> Prop) (h : heap D) (v : result X) (v' : result Y) : Prop :=
  match v, v' with Ok x, Ok y => P h x y | Err e, Err e' => e = e' | _, _ => False end.
Section Lru.
  Context {D K V V' : Type} (eqb : K -> K -> bool) (maxsize : nat) (P : heap D -> V -> V' -> Prop).
  Hypothesis HP : forall h h' x y, only_new h h' -> P h x y -> P h' x y.
  Definition entries (h : heap D) : list (K * V) -> list (K * V') -> Prop := Forall2 (fun a b => fst a = fst b /\ P h (snd a) (snd b)).
  Lemma entries_kept h h' c c' : only_new h h' -> entries h c c' -> entries h' c c'.
  Proof. intros N. apply Forall2_imp. intros a b [E H]. eauto. Qed.
  Lemma take_sim h k c c' : entries h c c' ->
    match take_key eqb k c, take_key eqb k c' with
    | Some (e, rest), Some (e', rest') => fst e = fst e' /\ P h (snd e) (snd e') /\ entries h rest rest'
    | None, None => True
    | _, _ => False
    end.
  Proof.
    induction 1 as [|[k1 v1] [k2 v2] c c' [E H] F IH]; [exact I|]. cbn in E, H |- *. subst k2.
    destruct (eqb k k1); [cbn; auto|].
    destruct (take_key eqb k c) as [[e rest]|], (take_key eqb k c') as [[e' rest']|]; try contradiction; [|exact I].
    destruct IH as (A & B & C). split; [exact A|]. split; [exact B|]. constructor; cbn; auto.
  Qed.
  Lemma firstn_sim h n c c' : entries h c c' -> entries h (firstn n c) (firstn n c').
  Proof. intros F. revert n. induction F; intros [|n]; cbn; constructor; auto. apply IHF. Qed.
  Lemma lru_sim h k c c' m m' : entries h c c' ->
    (let '(v, h') := m h in only_new h h' /\ agrees P h' v (m' tt)) ->
    let '(v, c1, h') := hlru eqb maxsize m k c h in
    let '(v', c1') := lru eqb maxsize m' k c' in
    only_new h h' /\ agrees P h' v v' /\ entries h' c1 c1'.
  Proof.
    intros F M. unfold hlru, lru. assert (T := take_sim h k c c' F).
    destruct (take_key eqb k c) as [[e rest]|], (take_key eqb k c') as [[e' rest']|]; try contradiction.
    - destruct T as (A & B & C). split; [apply only_new_refl|]. split; [exact B|]. constructor; auto.
    - destruct (m h) as [[v|e] h1], (m' tt) as [v'|e']; cbn in M |- *; destruct M as [N M]; try contradiction.
      + split; [exact N|]. split; [exact M|]. apply firstn_sim. constructor; [split; [reflexivity|exact M]|]. eapply entries_kept; eauto.
      + split; [exact N|]. split; [exact M|]. eapply entries_kept; eauto.
  Qed.
End Lru.

Section World.
  Context {D : Type} (O : dim_ops D) (deqb : D -> D -> bool) (hashable : D -> bool) (lim : limits) (U : unicode).
  Definition numbered (h : heap D) (x : nat * hrecipe) (y : nat * recipe) : Prop := fst x = fst y /\ recipe_at O h (snd x) (snd y).
  Lemma numbered_kept h h' x y : only_new h h' -> numbered h x y -> numbered h' x y.
  Proof. intros N [E H]. split; [exact E|]. eapply recipe_kept; eauto. Qed.
  Record same (st : @hstate D) (c : @caches D) : Prop := {
    sm_made : Forall2 (recipe_at O (hs_heap st)) (hs_made st) (c_made c);
    sm_recipes : entries numbered (hs_heap st) (hs_recipes st) (c_recipes c);
    sm_cooked : entries cooked_at (hs_heap st) (hs_cooked st) (c_cooked c) }.

  Lemma reconstruct_agrees h r rc shape dims : recipe_at O h r rc ->
    let '(v, h') := hp_reconstruct O r shape dims h in only_new h h' /\ agrees cooked_at h' v (reconstruct O rc shape dims).
  Proof.
    intros H. assert (X := reconstruct_heap O h r rc shape dims H). destruct (hp_reconstruct O r shape dims h) as [[k|e] h'].
    - destruct X as (N & c & -> & C). split; [exact N|exact C].
    - destruct X as (N & ->). split; [exact N|reflexivity].
  Qed.

  Lemma prepare_same o k st c : same st c ->
    let '(v, st') := hcached_prepare O lim U o k st in
    let '(v', c') := cached_prepare lim U o k c in
    same st' c' /\ only_new (hs_heap st) (hs_heap st') /\ agrees numbered (hs_heap st') v v'.
  Proof.
    intros [S1 S2 S3]. unfold hcached_prepare, cached_prepare.
    match goal with |- context [hlru _ _ ?m _ _ _] => set (prog := m) end.
    match goal with |- context [lru _ _ ?m _ _] => set (prog' := m) end.
    assert (M : let '(v, h') := prog (hs_heap st) in only_new (hs_heap st) h' /\ agrees numbered h' v (prog' tt)).
    { unfold prog, prog'. destruct k as [[[p op] ns] n]. rewrite hbind_eq. unfold lift.
      destruct (prepare_recipe U o p (op_of_key op) ns n) as [rc|e]; cbn [bind]; [|split; [apply only_new_refl|reflexivity]].
      rewrite hbind_eq. destruct (hp_recipe_spec O rc (hs_heap st)) as (r & h' & -> & N & R). unfold hret.
      split; [exact N|]. cbn. split; [|exact R]. apply (Forall2_size _ _ _ S1). }
    assert (L := lru_sim rkey_eqb (l_recipes lim) numbered numbered_kept _ k _ _ prog prog' S2 M).
    assert (T := take_sim rkey_eqb numbered _ k _ _ S2).
    destruct (hlru _ _ _ _ _ _) as [[v c1] h'], (lru _ _ _ _ _) as [v' c1']. destruct L as (N & A & F).
    assert (S1' : Forall2 (recipe_at O h') (hs_made st) (c_made c)) by (eapply Forall2_imp; [|exact S1]; intros; eapply recipe_kept; eauto).
    split; [|split; [exact N|exact A]].
    split; cbn; [|exact F|eapply entries_kept; eauto using cooked_kept].
    destruct (take_key rkey_eqb k (hs_recipes st)) as [[e rest]|], (take_key rkey_eqb k (c_recipes c)) as [[e' rest']|]; try contradiction; [exact S1'|].
    destruct v as [[i r]|e], v' as [[i' rc]|e']; cbn in A; try contradiction; [|exact S1'].
    apply Forall2_app; [exact S1'|]. constructor; [apply A|constructor].
  Qed.

  Lemma reconstruct_same i r rc shape sizes st c : same st c -> recipe_at O (hs_heap st) r rc ->
    let '(v, st') := hcached_reconstruct O deqb lim (i, r) shape sizes st in
    let '(v', c') := cached_reconstruct O deqb lim (i, rc) shape sizes c in
    same st' c' /\ only_new (hs_heap st) (hs_heap st') /\ agrees cooked_at (hs_heap st') v v'.
  Proof.
    intros [S1 S2 S3] H. unfold hcached_reconstruct, cached_reconstruct. cbn [fst snd].
    assert (L := lru_sim (ckey_eqb deqb) (l_cooked lim) cooked_at cooked_kept _ (i, shape, sizes) _ _
                   (hp_reconstruct O r shape sizes) (fun _ => reconstruct O rc shape sizes) S3 (reconstruct_agrees _ r rc shape sizes H)).
    destruct (hlru _ _ _ _ _ _) as [[v c1] h'], (lru _ _ _ _ _) as [v' c1']. destruct L as (N & A & F).
    split; [|split; [exact N|exact A]]. split; cbn; [|eapply entries_kept; eauto using numbered_kept|exact F].
    eapply Forall2_imp; [|exact S1]; intros; eapply recipe_kept; eauto.
  Qed.

  Lemma on_heap_same {X Y} (P : heap D -> X -> Y -> Prop) (m : HM D X) v' st c : same st c ->
    (let '(v, h') := m (hs_heap st) in only_new (hs_heap st) h' /\ agrees P h' v v') ->
    let '(v, st') := on_heap m st in same st' c /\ only_new (hs_heap st) (hs_heap st') /\ agrees P (hs_heap st') v v'.
  Proof.
    intros [S1 S2 S3] M. unfold on_heap. destruct (m (hs_heap st)) as [v h']. destruct M as [N A].
    split; [|split; [exact N|exact A]].
    split; cbn; [eapply Forall2_imp; [|exact S1]; intros; eapply recipe_kept; eauto|eapply entries_kept; eauto using numbered_kept|
                 eapply entries_kept; eauto using cooked_kept].
  Qed.

  Lemma cooked_for_same {T} (B : backend T D) i r rc tensor sizes st c : same st c -> recipe_at O (hs_heap st) r rc ->
    let '(v, st') := hcooked_for O deqb hashable lim B (i, r) tensor sizes st in
    let '(v', c') := cooked_for O deqb hashable lim B (i, rc) tensor sizes c in
    same st' c' /\ only_new (hs_heap st) (hs_heap st') /\ agrees cooked_at (hs_heap st') v v'.
  Proof.
    intros S H. unfold hcooked_for, cooked_for. cbn [snd]. 
    assert (Un : forall st c, same st c -> recipe_at O (hs_heap st) r rc ->
      let '(v, st') := on_heap (hp_reconstruct O r (b_shape B tensor) sizes) st in
      same st' c /\ only_new (hs_heap st) (hs_heap st') /\ agrees cooked_at (hs_heap st') v (reconstruct O rc (b_shape B tensor) sizes)).
    { intros s d Sd Hd. apply on_heap_same; [exact Sd|]. apply reconstruct_agrees, Hd. }
    destruct (key_hashable hashable (b_shape B tensor) sizes); [|exact (Un st c S H)].
    assert (R := reconstruct_same i r rc (b_shape B tensor) sizes st c S H).
    destruct (hcached_reconstruct _ _ _ _ _ _ st) as [v st1], (cached_reconstruct _ _ _ _ _ _ c) as [v' c1].
    destruct R as (S' & N & A). destruct v as [k|e], v' as [k'|e']; try contradiction; [auto|]. cbn in A. subst e'.
    destruct e; try (split; [exact S'|]; split; [exact N|reflexivity]).
    assert (R := Un st1 c1 S' (recipe_kept _ _ _ _ _ N H)).
    destruct (on_heap (hp_reconstruct O r (b_shape B tensor) sizes) st1) as [v st2]. destruct R as (S2 & N2 & A2).
    split; [exact S2|]. split; [eauto using only_new_trans|exact A2].
  Qed.

  Lemma hopkey_same {T} (red : hreduction D T) red' id : calls red red' -> hopkey_of red id = opkey_of red' id.
  Proof. destruct red, red'; cbn; try contradiction; congruence. Qed.

  Definition value_at {X} (h : heap D) (x y : X) : Prop := x = y.
  Lemma agrees_value {X} (h : heap D) (v v' : result X) : agrees value_at h v v' <-> v = v'.
  Proof. unfold agrees, value_at. destruct v, v'; split; try congruence; try contradiction. Qed.

  Lemma reduce_same {T} (B : backend T D) o x pattern red red' id sizes st c : same st c -> calls red red' ->
    let '(v, st') := hcached_reduce O deqb hashable lim U o B x pattern red id sizes st in
    let '(v', c') := cached_api_reduce O deqb hashable lim U o B x pattern red' id sizes c in
    same st' c' /\ only_new (hs_heap st) (hs_heap st') /\ v = v'.
  Proof.
    intros S R. unfold hcached_reduce, cached_api_reduce.
    destruct (let* _ := check_kwargs reserved_kwargs sizes in stack_input B x) as [t|e]; [|split; [exact S|]; split; [apply only_new_refl|reflexivity]].
    rewrite (hopkey_same _ _ _ R). destruct (opkey_of red' id) as [op|]; [|split; [exact S|]; split; [apply only_new_refl|reflexivity]].
    set (key := (pattern, op, map fst sizes, length (b_shape B t))).
    assert (P := prepare_same o key st c S).
    destruct (hcached_prepare O lim U o key st) as [v st1], (cached_prepare lim U o key c) as [v' c1]. destruct P as (S1 & N1 & A1).
    destruct v as [[i r]|e], v' as [[i' rc]|e']; try contradiction; [|cbn in A1; subst e'; auto].
    destruct A1 as [Ei H]. cbn in Ei, H. subst i'.
    assert (K := cooked_for_same B i r rc t sizes st1 c1 S1 H).
    destruct (hcooked_for O deqb hashable lim B (i, r) t sizes st1) as [v st2], (cooked_for O deqb hashable lim B (i, rc) t sizes c1) as [v' c2].
    destruct K as (S2 & N2 & A2).
    destruct v as [k|e], v' as [k'|e']; try contradiction; cbn [bind]; [|cbn in A2; subst e'; split; [exact S2|]; split; [eauto using only_new_trans|reflexivity]].
    assert (G := on_heap_same value_at (hp_apply B k t red) (apply_cooked B k' t red') st2 c2 S2).
    rewrite (apply_heap B _ k k' t red red' A2 R) in G. specialize (G (conj (only_new_refl _) (proj2 (agrees_value _ _ _) eq_refl))).
    destruct (on_heap (hp_apply B k t red) st2) as [v st3]. destruct G as (S3 & N3 & A3).
    split; [exact S3|]. split; [eauto using only_new_trans|]. exact (proj1 (agrees_value _ _ _) A3).
  Qed.

  Definition apart (c : @caches D) b1 b2 : @caches D :=
    {| c_recipes := if b1 : bool then [] else c_recipes c; c_cooked := if b2 : bool then [] else c_cooked c;
       c_analyzed := c_analyzed c; c_compact := c_compact c; c_made := c_made c |}.
  Lemma made_same st c id r : same st c -> nth_error (hs_made st) id = Some r ->
    exists rc, nth_error (c_made c) id = Some rc /\ recipe_at O (hs_heap st) r rc.
  Proof.
    intros [S _ _]. revert id. induction S as [|x y l m H S IH]; intros [|id] E; cbn in *; try discriminate; eauto.
    injection E as ->. eauto.
  Qed.
  Notation reachable := (reachable_caches O deqb lim U).
  Lemma step_same st st' c : hstep O deqb lim U st st' -> same st c -> reachable c ->
    exists c', same st' c' /\ reachable c' /\ only_new (hs_heap st) (hs_heap st') /\ (exists l, hs_made st' = hs_made st ++ l).
  Proof.
    intros [o k s Ho|id rec shape sizes s Hm|id rec shape sizes s Hm|b1 b2 s] S R.
    - assert (P := prepare_same o k s c S). assert (R' := RC_prepare O deqb lim U o k c R Ho).
      assert (M : exists l, hs_made (snd (hcached_prepare O lim U o k s)) = hs_made s ++ l).
      { unfold hcached_prepare. destruct (hlru _ _ _ _ _ _) as [[v c1] h']. cbn.
        destruct (take_key _ _ _); [|destruct v as [[i r]|]]; eauto; exists []; now rewrite app_nil_r. }
      destruct (hcached_prepare O lim U o k s) as [v st1], (cached_prepare lim U o k c) as [v' c1].
      destruct P as (S1 & N1 & A1). exists c1. auto.
    - destruct (made_same s c id rec S Hm) as (rc & Hm' & H).
      assert (P := reconstruct_same id rec rc shape sizes s c S H). assert (R' := RC_reconstruct O deqb lim U id rc shape sizes c R Hm').
      assert (M : exists l, hs_made (snd (hcached_reconstruct O deqb lim (id, rec) shape sizes s)) = hs_made s ++ l).
      { unfold hcached_reconstruct. destruct (hlru _ _ _ _ _ _) as [[v c1] h']. exists []. now rewrite app_nil_r. }
      destruct (hcached_reconstruct O deqb lim (id, rec) shape sizes s) as [v st1], (cached_reconstruct O deqb lim (id, rc) shape sizes c) as [v' c1].
      destruct P as (S1 & N1 & A1). exists c1. auto.
    - destruct (made_same s c id rec S Hm) as (rc & Hm' & H).
      assert (P := on_heap_same cooked_at (hp_reconstruct O rec shape sizes) (reconstruct O rc shape sizes) s c S (reconstruct_agrees _ _ _ _ _ H)).
      exists c. unfold on_heap in *. destruct (hp_reconstruct O rec shape sizes (hs_heap s)) as [v h']. destruct P as (S1 & N1 & _).
      split; [exact S1|]. split; [exact R|]. split; [exact N1|]. exists []. cbn. now rewrite app_nil_r.
    - exists (apart c b1 b2). destruct S as [S1 S2 S3]. split; [|split; [|split]].
      + split; cbn; [exact S1| |]; [destruct b1|destruct b2]; try assumption; constructor.
      + exact (RC_clear O deqb lim U b1 b2 false false c R).
      + apply only_new_refl.
      + exists []. cbn. now rewrite app_nil_r.
  Qed.
  Lemma later_same st st' c : later O deqb lim U st st' -> same st c -> reachable c ->
    exists c', same st' c' /\ reachable c' /\ only_new (hs_heap st) (hs_heap st') /\ (exists l, hs_made st' = hs_made st ++ l).
  Proof.
    induction 1 as [|s s' L IH E]; intros S R; [exists c; split; [exact S|]; split; [exact R|]; split; [apply only_new_refl|exists []; now rewrite app_nil_r]|].
    destruct (IH S R) as (c1 & S1 & R1 & N1 & l1 & M1). destruct (step_same _ _ _ E S1 R1) as (c2 & S2 & R2 & N2 & l2 & M2).
    exists c2. split; [exact S2|]. split; [exact R2|]. split; [eauto using only_new_trans|]. exists (l1 ++ l2). now rewrite M2, M1, app_assoc.
  Qed.
  Lemma fresh_same : same fresh_process no_caches.
  Proof. split; constructor. Qed.
End World.

(** ** The numbers of recipes *)
Section Ids.
  Context {D : Type} (O : dim_ops D) (deqb : D -> D -> bool) (hashable : D -> bool) (lim : limits) (U : unicode).
  Definition ids (st : @hstate D) : Prop := forall k i r, In (k, (i, r)) (hs_recipes st) -> nth_error (hs_made st) i = Some r.
  Lemma take_in {K V} (eqb : K -> K -> bool) k (c : list (K * V)) e rest : take_key eqb k c = Some (e, rest) -> In e c /\ incl rest c.
  Proof. intros E. destruct (take_key_spec eqb _ _ _ _ E) as (H1 & H2 & H3). auto. Qed.
  Lemma prepare_ids o k st v st' : ids st -> hcached_prepare O lim U o k st = (v, st') ->
    ids st' /\ forall i r, v = Ok (i, r) -> nth_error (hs_made st') i = Some r.
  Proof.
    intros I E. unfold hcached_prepare in E. unfold hlru in E.
    destruct (take_key rkey_eqb k (hs_recipes st)) as [[[k' [i' r']] rest]|] eqn:T.
    - destruct (take_in _ _ _ _ _ T) as [T1 T2]. injection E as <- <-. split.
      + intros k0 i r [E|H]; cbn; [injection E as <- <- <-; eauto|eapply I, T2, H].
      + intros i r E. injection E as <- <-. cbn. eapply I, T1.
    - destruct k as [[[p op] ns] n].
      rewrite hbind_eq in E. unfold lift in E. destruct (prepare_recipe U o p (op_of_key op) ns n) as [rc|e].
      + rewrite hbind_eq in E. destruct (hp_recipe_spec O rc (hs_heap st)) as (r & h' & Er & N & R). rewrite Er in E. unfold hret in E.
        injection E as <- <-.
        assert (New : nth_error (hs_made st ++ [r]) (length (hs_made st)) = Some r) by (rewrite nth_error_app2, Nat.sub_diag by lia; reflexivity).
        split.
        * intros k0 i r0 H. cbn [hs_recipes hs_made] in *. apply In_firstn' in H as [H|H].
          -- injection H as <- <- <-. exact New.
          -- rewrite nth_error_app1; [eapply I, H|]. apply nth_error_Some. rewrite (I _ _ _ H). discriminate.
        * intros i r0 E. injection E as <- <-. exact New.
      + injection E as <- <-. split; [exact I|discriminate].
  Qed.
  Lemma step_ids st st' : hstep O deqb lim U st st' -> ids st -> ids st'.
  Proof.
    intros [o k s Ho|id rec shape sizes s Hm|id rec shape sizes s Hm|b1 b2 s] I.
    - destruct (hcached_prepare O lim U o k s) as [v st1] eqn:E. exact (proj1 (prepare_ids _ _ _ _ _ I E)).
    - unfold hcached_reconstruct. destruct (hlru _ _ _ _ _ _) as [[v c1] h']. exact I.
    - unfold on_heap. destruct (hp_reconstruct _ _ _ _ _) as [v h']. exact I.
    - destruct b1; [intros k i r []|exact I].
  Qed.
  Lemma later_ids st st' : later O deqb lim U st st' -> ids st -> ids st'.
  Proof. induction 1; eauto using step_ids. Qed.
  Lemma later_trans st1 st2 st3 : later O deqb lim U st1 st2 -> later O deqb lim U st2 st3 -> later O deqb lim U st1 st3.
  Proof. intros L. induction 1; eauto using L_step. Qed.
  Lemma later_step st st' : hstep O deqb lim U st st' -> later O deqb lim U st st'.
  Proof. intros S. eapply L_step; [apply L_now|exact S]. Qed.
  Lemma hs_eta (st : @hstate D) : mkHS (hs_heap st) (hs_recipes st) (hs_cooked st) (hs_made st) = st.
  Proof. now destruct st. Qed.

  Lemma reconstruct_later i r shape sizes st v st' : nth_error (hs_made st) i = Some r ->
    hcached_reconstruct O deqb lim (i, r) shape sizes st = (v, st') -> later O deqb lim U st st' /\ hs_made st' = hs_made st.
  Proof.
    intros Hm E. split.
    - assert (S := HS_cached O deqb lim U i r shape sizes st Hm). rewrite E in S. apply later_step, S.
    - unfold hcached_reconstruct in E. destruct (hlru _ _ _ _ _ _) as [[v1 c1] h']. now injection E as <- <-.
  Qed.
  Lemma cooked_for_later {T} (B : backend T D) i r tensor sizes st v st' : nth_error (hs_made st) i = Some r ->
    hcooked_for O deqb hashable lim B (i, r) tensor sizes st = (v, st') -> later O deqb lim U st st'.
  Proof.
    intros Hm E. unfold hcooked_for in E. cbn [snd] in E.
    assert (Un : forall s v s', nth_error (hs_made s) i = Some r -> on_heap (hp_reconstruct O r (b_shape B tensor) sizes) s = (v, s') -> later O deqb lim U s s').
    { intros s w s' Hs Es. assert (S := HS_uncached O deqb lim U i r (b_shape B tensor) sizes s Hs). rewrite Es in S. apply later_step, S. }
    destruct (key_hashable hashable (b_shape B tensor) sizes); [|eapply Un; eauto].
    destruct (hcached_reconstruct O deqb lim (i, r) (b_shape B tensor) sizes st) as [v1 st1] eqn:E1.
    destruct (reconstruct_later _ _ _ _ _ _ _ Hm E1) as [L1 M1].
    destruct v1 as [k|e]; [injection E as <- <-; exact L1|]. destruct e; try (injection E as <- <-; exact L1).
    eapply later_trans; [exact L1|]. eapply Un; [rewrite M1; exact Hm|exact E].
  Qed.

  Lemma reduce_later {T} (B : backend T D) o x pattern red red' id sizes st v st' : orders_ok o -> calls red red' ->
    ids st -> (exists c, same O st c) -> 
    hcached_reduce O deqb hashable lim U o B x pattern red id sizes st = (v, st') -> later O deqb lim U st st'.
  Proof.
    intros Ho R I (c & S) E. unfold hcached_reduce in E.
    destruct (let* _ := check_kwargs reserved_kwargs sizes in stack_input B x) as [t|e]; [|injection E as <- <-; apply L_now].
    destruct (hopkey_of red id) as [op|]; [|injection E as <- <-; apply L_now].
    set (key := (pattern, op, map fst sizes, length (b_shape B t))) in E.
    assert (L1 := later_step _ _ (HS_prepare O deqb lim U o key st Ho)).
    assert (P := prepare_same O lim U o key st c S).
    destruct (hcached_prepare O lim U o key st) as [v1 st1] eqn:E1. cbn [snd] in L1.
    destruct (prepare_ids _ _ _ _ _ I E1) as [I1 M1].
    destruct (cached_prepare lim U o key c) as [v1' c1]. destruct P as (S1 & N1 & A1).
    destruct v1 as [[i r]|e]; [|injection E as <- <-; exact L1]. specialize (M1 i r eq_refl).
    destruct v1' as [[i' rc]|]; [|contradiction]. destruct A1 as [_ H]. cbn in H.
    assert (K := cooked_for_same O deqb hashable lim B i r rc t sizes st1 c1 S1 H).
    destruct (hcooked_for O deqb hashable lim B (i, r) t sizes st1) as [v2 st2] eqn:E2.
    assert (L2 := cooked_for_later B _ _ _ _ _ _ _ M1 E2).
    destruct (cooked_for O deqb hashable lim B (i, rc) t sizes c1) as [v2' c2]. destruct K as (S2 & N2 & A2).
    destruct v2 as [k|e]; [|injection E as <- <-; eauto using later_trans].
    destruct v2' as [k'|]; [|contradiction]. cbn in A2.
    unfold on_heap in E. rewrite (apply_heap B _ k k' t red red' A2 R), hs_eta in E. injection E as <- <-. eauto using later_trans.
  Qed.
End Ids.

Section Ints.
  Context (lim : limits) {A : Type} (r : runtime A) (Hok : runtime_ok r).
  Notation reach := (later int_ops Z.eqb lim (rt_unicode r) fresh_process).
  Lemma reach_same st : reach st -> ids st /\ exists c, same int_ops st c /\ reachable_caches int_ops Z.eqb lim (rt_unicode r) c.
  Proof.
    intros L. split; [eapply later_ids; [exact L|intros k i x []]|].
    destruct (later_same int_ops Z.eqb lim (rt_unicode r) _ _ no_caches L (fresh_same int_ops) (RC_none _ _ _ _)) as (c & S & R & _). eauto.
  Qed.

  Theorem h_reduce_spec x pattern red red' id sizes st v st' : reach st -> NoDup (map fst sizes) -> hopkey_of red id <> None -> calls red red' ->
    h_reduce lim r x pattern red id sizes st = (v, st') -> v = reduce r x pattern red' sizes /\ later int_ops Z.eqb lim (rt_unicode r) st st'.
  Proof.
    intros L Hn Hk R E. destruct (reach_same st L) as (I & c & S & Rc). unfold h_reduce in E. split.
    - assert (G := reduce_same int_ops Z.eqb (fun _ => true) lim (rt_unicode r) (rt_backend r) (rt_orders r) x pattern red red' id sizes st c S R).
      rewrite E in G. fold (cached_reduce lim r x pattern red' id sizes c) in G.
      destruct (cached_reduce lim r x pattern red' id sizes c) as [v' c'] eqn:E'. destruct G as (_ & _ & ->).
      eapply (reduce_cached lim r Hok); [exact Rc|exact Hn| |exact E']. rewrite <- (hopkey_same _ _ _ R). exact Hk.
    - eapply reduce_later; [apply Hok|exact R|exact I|eauto|exact E].
  Qed.

  Theorem h_xp_reduce_spec x pattern red red' id sizes st v st' : reach st -> NoDup (map fst sizes) -> hopkey_of red id <> None -> calls red red' ->
    h_xp_reduce lim r x pattern red id sizes st = (v, st') -> v = xp_reduce_ r x pattern red' sizes /\ later int_ops Z.eqb lim (rt_unicode r) st st'.
  Proof.
    intros L Hn Hk R E. destruct (reach_same st L) as (I & c & S & Rc).
    assert (G : later int_ops Z.eqb lim (rt_unicode r) st st' /\ exists c', cached_xp_reduce lim r x pattern red' id sizes c = (v, c')).
    { unfold h_xp_reduce in E. unfold cached_xp_reduce.
      destruct (let* _ := check_kwargs reserved_kwargs sizes in stack_input_array_api (rt_ns r) x) as [t|e]; [|injection E as <- <-; split; [apply L_now|eauto]].
      rewrite <- (hopkey_same _ _ _ R). destruct (hopkey_of red id) as [op|]; [|contradiction].
      set (key := (pattern, op, map fst sizes, length (xp_shape (rt_ns r) t))) in *.
      assert (L1 := later_step _ _ _ _ _ _ (HS_prepare int_ops Z.eqb lim (rt_unicode r) (rt_orders r) key st (ro_orders _ Hok))).
      assert (P := prepare_same int_ops lim (rt_unicode r) (rt_orders r) key st c S).
      destruct (hcached_prepare int_ops lim (rt_unicode r) (rt_orders r) key st) as [v1 st1] eqn:E1. cbn [snd] in L1.
      destruct (prepare_ids _ _ _ _ _ _ _ _ I E1) as [I1 M1].
      destruct (cached_prepare lim (rt_unicode r) (rt_orders r) key c) as [v1' c1]. destruct P as (S1 & N1 & A1).
      destruct v1 as [[i q]|e].
      2:{ destruct v1' as [[i' rc]|e']; [contradiction|]. cbn in A1. subst e'. injection E as <- <-. eauto. }
      specialize (M1 i q eq_refl). destruct v1' as [[i' rc]|]; [|contradiction]. destruct A1 as [Ei H]. cbn in Ei, H. subst i'.
      assert (K := reconstruct_same int_ops Z.eqb lim i q rc (xp_shape (rt_ns r) t) sizes st1 c1 S1 H).
      destruct (hcached_reconstruct int_ops Z.eqb lim (i, q) (xp_shape (rt_ns r) t) sizes st1) as [v2 st2] eqn:E2.
      destruct (reconstruct_later int_ops Z.eqb lim (rt_unicode r) _ _ _ _ _ _ _ M1 E2) as [L2 _].
      destruct (cached_reconstruct int_ops Z.eqb lim (i, rc) (xp_shape (rt_ns r) t) sizes c1) as [v2' c2]. destruct K as (S2 & N2 & A2).
      destruct v2 as [k|e], v2' as [k'|e']; try contradiction; cbn in A2.
      - unfold on_heap in E. rewrite (apply_array_api_heap r _ k k' t red red' A2 R), hs_eta in E. injection E as <- <-.
        split; [eauto using later_trans|]. cbn [bind]. eauto.
      - subst e'. injection E as <- <-. split; [eauto using later_trans|]. cbn [bind]. eauto. }
    destruct G as (G & c' & E'). split; [|exact G].
    eapply (xp_reduce_cached lim r Hok); [exact Rc|exact Hn| |exact E']. rewrite <- (hopkey_same _ _ _ R). exact Hk.
  Qed.

  Theorem h_unchanged st st' : reach st -> later int_ops Z.eqb lim (rt_unicode r) st st' ->
    only_new (hs_heap st) (hs_heap st') /\ exists l, hs_made st' = hs_made st ++ l.
  Proof.
    intros L L'. destruct (reach_same st L) as (_ & c & S & Rc).
    destruct (later_same int_ops Z.eqb lim (rt_unicode r) _ _ c L' S Rc) as (_ & _ & _ & N & M). auto.
  Qed.

  Theorem h_cached_recipe st p op ns n i rec : reach st -> In ((p, op, ns, n), (i, rec)) (hs_recipes st) ->
    nth_error (hs_made st) i = Some rec /\
    exists o rc, orders_ok o /\ prepare_recipe (rt_unicode r) o p (op_of_key op) ns n = Ok rc /\ recipe_at int_ops (hs_heap st) rec rc.
  Proof.
    intros L H. destruct (reach_same st L) as (I & c & S & Rc). split; [eapply I, H|].
    assert (Sd := reachable_sound int_ops Z.eqb zeq lim (rt_unicode r) c Rc).
    assert (F : exists y, In y (c_recipes c) /\ fst y = (p, op, ns, n) /\ numbered int_ops (hs_heap st) (i, rec) (snd y)).
    { assert (F := sm_recipes _ _ _ S). clear - F H. induction F as [|a b l m [E X] F IH]; [contradiction|].
      destruct H as [->|H]; [exists b; cbn in *; auto|]. destruct (IH H) as (y & Y & Z). exists y. cbn. auto. }
    destruct F as ([k [i' rc]] & Y & Ek & [Ei X]). cbn in Ek, Ei, X. subst k i'.
    destruct (s_recipes _ _ _ Sd _ _ _ _ _ _ Y) as (_ & o & Ho & P). eauto 6.
  Qed.

  Theorem h_cached_cooked st i shape sizes k : reach st -> In ((i, shape, sizes), k) (hs_cooked st) ->
    exists rec rc c, nth_error (hs_made st) i = Some rec /\ recipe_at int_ops (hs_heap st) rec rc /\
      reconstruct int_ops rc shape sizes = Ok c /\ cooked_at (hs_heap st) k c.
  Proof.
    intros L H. destruct (reach_same st L) as (I & c & S & Rc).
    assert (Sd := reachable_sound int_ops Z.eqb zeq lim (rt_unicode r) c Rc).
    assert (F : exists y, In y (c_cooked c) /\ fst y = (i, shape, sizes) /\ cooked_at (hs_heap st) k (snd y)).
    { assert (F := sm_cooked _ _ _ S). clear - F H. induction F as [|a b l m [E X] F IH]; [contradiction|].
      destruct H as [->|H]; [exists b; cbn in *; auto|]. destruct (IH H) as (y & Y & Z). exists y. cbn. auto. }
    destruct F as ([k0 c0] & Y & Ek & X). cbn in Ek, X. subst k0.
    destruct (s_cooked _ _ _ Sd _ _ _ _ Y) as (rc & M & E).
    assert (G : exists rec, nth_error (hs_made st) i = Some rec /\ recipe_at int_ops (hs_heap st) rec rc).
    { assert (F := sm_made _ _ _ S). clear - F M. revert i M. induction F as [|a b l m X F IH]; intros [|i] M; cbn in *; try discriminate; eauto.
      injection M as ->. eauto. }
    destruct G as (rec & G1 & G2). eauto 8.
  Qed.
End Ints.
