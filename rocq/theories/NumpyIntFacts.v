(** * Lengths that are integers of numpy: facts *)
From Coq Require Import Permutation.
From Verif Require Import Py Tensor ListFacts TensorFacts SpecSem SpecGrammar SpecPattern SpecOps Parsing Recipe Ops Backends Api StepFacts FrontFacts MainFacts3
  ApiFacts2 ApiFacts6 Laws EquivalentFacts Packing Einsum Cache CacheFacts SymFacts NumpyInts.

(** two runs: the same outcome, or the second fails with an error that [slack] allows *)
Definition fsim {A B} (slack : exn -> Prop) (R : A -> B -> Prop) (m1 : result A) (m2 : result B) : Prop :=
  match m1, m2 with
  | Ok a, Ok b => R a b
  | Err e, Err e' => e = e' \/ slack e'
  | Ok _, Err e => slack e
  | Err _, Ok _ => False
  end.

Section Sim.
  Context (slack : exn -> Prop).
  Lemma fsim_same {A} (m : result A) : fsim slack eq m m.
  Proof. destruct m; cbn; auto. Qed.
  Lemma fsim_slack {A B} (R : A -> B -> Prop) m e : slack e -> fsim slack R m (Err e).
  Proof. intros H. destruct m; cbn; auto. Qed.
  Lemma fsim_bind {A B C D} (R : A -> B -> Prop) (Q : C -> D -> Prop) m1 m2 f g :
    fsim slack R m1 m2 -> (forall a b, R a b -> fsim slack Q (f a) (g b)) -> fsim slack Q (let* a := m1 in f a) (let* b := m2 in g b).
  Proof.
    intros H K. destruct m1 as [a|e], m2 as [b|e']; cbn in *; auto; try contradiction.
    destruct (f a); cbn; auto.
  Qed.
  Lemma fsim_mapM {A B C D} (P : A -> B -> Prop) (R : C -> D -> Prop) f g l1 l2 :
    Forall2 P l1 l2 -> (forall a b, P a b -> fsim slack R (f a) (g b)) -> fsim slack (Forall2 R) (mapM f l1) (mapM g l2).
  Proof.
    intros H K. induction H as [|a b l1 l2 Hab _ IH]; [cbn; constructor|]. cbn [mapM].
    apply (fsim_bind R); [apply K; exact Hab|]. intros c d Hcd. apply (fsim_bind (Forall2 R)); [exact IH|].
    intros cs ds Hcs. cbn. constructor; assumption.
  Qed.
  Lemma fsim_foldM {A B C D} (P : A -> B -> Prop) (R : C -> D -> Prop) f g l1 l2 :
    Forall2 P l1 l2 -> (forall c d a b, R c d -> P a b -> fsim slack R (f c a) (g d b)) -> forall c d, R c d ->
    fsim slack R (foldM f l1 c) (foldM g l2 d).
  Proof.
    intros H K. induction H as [|a b l1 l2 Hab _ IH]; intros c d Hcd; [exact Hcd|]. cbn [foldM].
    apply (fsim_bind R); [apply K; assumption|]. intros c' d' H'. apply IH. exact H'.
  Qed.
  Lemma fsim_list_get {A B} (R : A -> B -> Prop) l1 l2 i : Forall2 R l1 l2 -> fsim slack R (list_get l1 i) (list_get l2 i).
  Proof.
    intros H. unfold list_get. revert i. induction H as [|a b l1 l2 Hab _ IH]; intros [|i]; cbn; auto.
  Qed.
  Lemma fsim_list_upd {A B} (R : A -> B -> Prop) l1 l2 i a b : Forall2 R l1 l2 -> R a b ->
    fsim slack (Forall2 R) (list_upd l1 i a) (list_upd l2 i b).
  Proof.
    intros H Hab. revert i. induction H as [|x y l1 l2 Hxy H IH]; intros [|i]; cbn [list_upd]; try (cbn; auto; fail).
    apply (fsim_bind (Forall2 R)); [apply IH|]. intros c d Hcd. cbn. constructor; assumption.
  Qed.
End Sim.

Lemma fsim_weaken {A B} (s1 s2 : exn -> Prop) (R : A -> B -> Prop) m1 m2 : (forall e, s1 e -> s2 e) -> fsim s1 R m1 m2 -> fsim s2 R m1 m2.
Proof. intros H. destruct m1, m2; cbn; auto. intros [K|K]; auto. Qed.

Definition ev (d : anyint) (z : Z) : Prop := int_value d = z.
Definition is_np (d : anyint) : bool := match d with PyInt _ => false | NpInt _ => true end.

(** a check that numpy integers skip *)
Definition skipped (e : exn) : Prop := e = EinopsError \/ e = ZeroDivisionError.

Lemma list_upd_get {A} (l l' : list A) i v j : list_upd l i v = Ok l' -> nth_error l' j = if j =? i then Some v else nth_error l j.
Proof.
  revert i j l'. induction l as [|x l IH]; intros i j l' E; [discriminate|]. destruct i as [|i]; cbn [list_upd] in E.
  - injection E as <-. destruct j; reflexivity.
  - apply bind_Ok in E as [r [E1 E2]]. injection E2 as <-. destruct j as [|j]; [reflexivity|]. cbn [nth_error Nat.eqb]. apply IH. exact E1.
Qed.

Section Reconstruct.
  Context (slack : exn -> Prop) (K : list nat).
  Notation O := anyint_ops.
  (** the lengths at the positions [K] are Python ints *)
  Let strict (al : list anyint) : Prop := forall p d, In p K -> nth_error al p = Some d -> is_np d = false.
  Let strel (a : list anyint * bool) (b : list Z * bool) : Prop := strict (fst a) /\ Forall2 ev (fst a) (fst b) /\ snd a = snd b.
  Let may_skip : Prop := forall e, skipped e -> slack e.

  Lemma product_ev l1 l2 : Forall2 ev l1 l2 -> ev (product O l1) (product int_ops l2).
  Proof.
    unfold product. intros H. assert (G : forall a b, ev a b -> ev (fold_left (d_mul O) l1 a) (fold_left (d_mul int_ops) l2 b)).
    { induction H as [|x y l1 l2 Hxy _ IH]; intros a b Hab; [exact Hab|]. cbn [fold_left]. apply IH.
      destruct a, x; cbn in *; unfold ev in *; cbn in *; subst; reflexivity. }
    apply G. reflexivity.
  Qed.
  Lemma product_py l : Forall (fun d => is_np d = false) l -> is_np (product O l) = false.
  Proof.
    unfold product. intros H. assert (G : forall a, is_np a = false -> is_np (fold_left (d_mul O) l a) = false).
    { induction H as [|x l Hx _ IH]; intros a Ha; [exact Ha|]. cbn [fold_left]. apply IH. destruct a, x; cbn in *; congruence. }
    apply G. reflexivity.
  Qed.
  Lemma mapM_get_py al ps ks : strict al -> incl ps K -> mapM (list_get al) ps = Ok ks -> Forall (fun d => is_np d = false) ks.
  Proof.
    intros Hs. revert ks. induction ps as [|p ps IH]; intros ks Hi E; cbn in E; [injection E as <-; constructor|].
    apply bind_Ok in E as [d [E1 E]]. apply bind_Ok in E as [ds [E2 E]]. injection E as <-. constructor.
    - unfold list_get in E1. destruct (nth_error al p) as [d'|] eqn:En; [|discriminate]. injection E1 as ->.
      apply (Hs p); [apply Hi; left; reflexivity|exact En].
    - apply IH; [intros a Ha; apply Hi; right; exact Ha|exact E2].
  Qed.
  Lemma both_py a b x y : ev a x -> ev b y -> is_np a = false -> is_np b = false -> both_ints O a b = Some (x, y).
  Proof. destruct a, b; cbn; unfold ev; cbn; intros <- <-; congruence. Qed.
  Lemma both_np a b : is_np a || is_np b = true -> both_ints O a b = None.
  Proof. destruct a, b; cbn; congruence. Qed.
  Lemma div_ev a b x y : ev a x -> ev b y -> y <> 0%Z -> exists q, d_floordiv O a b = Ok q /\ ev q (x / y)%Z.
  Proof.
    unfold ev. destruct a, b; cbn; intros <- <- Hn; apply Z.eqb_neq in Hn; rewrite Hn; eexists; split; reflexivity.
  Qed.
  Lemma div_py a b q : d_floordiv O a b = Ok q -> is_np a = false -> is_np b = false -> is_np q = false.
  Proof. destruct a, b; cbn; try discriminate. destruct (z0 =? 0)%Z; [discriminate|]. intros E. injection E as <-. reflexivity. Qed.

  Let py_shape (sh : list anyint) : Prop := forall d, In d sh -> is_np d = false.

  Lemma infer_fsim sh s st1 st2 i known unknown : Forall2 ev sh s -> (incl known K /\ py_shape sh \/ may_skip /\ K = []) -> strel st1 st2 ->
    fsim slack strel (infer_step O sh st1 (i, (known, unknown))) (infer_step int_ops s st2 (i, (known, unknown))).
  Proof.
    intros Hsh HK. destruct st1 as [al1 n1], st2 as [al2 n2]. intros [Hst [Hal Hn]]. cbn [fst snd] in Hst, Hal, Hn. subst n2.
    unfold infer_step.
    apply (fsim_bind _ (fun a b => ev a b /\ (py_shape sh -> is_np a = false))).
    { pose proof (fsim_list_get slack ev sh s i Hsh) as G. unfold list_get in *. destruct (nth_error sh i) as [d|] eqn:En; [|exact G].
      destruct (nth_error s i); [|exact G]. cbn in *. split; [exact G|]. intros Hpy. apply Hpy. eapply nth_error_In; eauto. }
    intros l1 l2 [Hl Hlp].
    assert (Hput : forall u d z, ev d z -> is_np d = false \/ K = [] ->
      fsim slack strel (let* al := list_upd al1 u d in Ok (al, if length known + length unknown =? 1 then n1 else true))
                       (let* al := list_upd al2 u z in Ok (al, if length known + length unknown =? 1 then n1 else true))).
    { intros u d z Hd Hp. pose proof (fsim_list_upd slack ev al1 al2 u d z Hal Hd) as G.
      destruct (list_upd al1 u d) as [a|e] eqn:E1, (list_upd al2 u z) as [b|e'] eqn:E2; cbn in G |- *; auto; try contradiction.
      split; [|split; auto]. cbn [fst]. intros p d' Hin Eg. rewrite (list_upd_get _ _ _ _ _ E1) in Eg.
      destruct (p =? u); [injection Eg as <-; destruct Hp as [Hp|Hp]; [exact Hp|rewrite Hp in Hin; destruct Hin]|exact (Hst p d' Hin Eg)]. }
    assert (G : fsim slack strel
      (let* ks := mapM (list_get al1) known in
       let* al := match unknown with
          | [] => match both_ints O l1 (fold_left (d_mul O) ks (d_of_Z O 1)) with
                  | Some (l, k) => if (l =? k)%Z then Ok al1 else Err EinopsError | None => Ok al1 end
          | u :: _ => let* _ := match both_ints O l1 (fold_left (d_mul O) ks (d_of_Z O 1)) with
                        | Some (l, k) => if (k =? 0)%Z then Err ZeroDivisionError else raise_if (negb (l mod k =? 0)%Z) EinopsError
                        | None => Ok tt end in
                      let* q := d_floordiv O l1 (fold_left (d_mul O) ks (d_of_Z O 1)) in list_upd al1 u q
          end in Ok (al, if length known + length unknown =? 1 then n1 else true))
      (let* ks := mapM (list_get al2) known in
       let* al := match unknown with
          | [] => match both_ints int_ops l2 (fold_left (d_mul int_ops) ks (d_of_Z int_ops 1)) with
                  | Some (l, k) => if (l =? k)%Z then Ok al2 else Err EinopsError | None => Ok al2 end
          | u :: _ => let* _ := match both_ints int_ops l2 (fold_left (d_mul int_ops) ks (d_of_Z int_ops 1)) with
                        | Some (l, k) => if (k =? 0)%Z then Err ZeroDivisionError else raise_if (negb (l mod k =? 0)%Z) EinopsError
                        | None => Ok tt end in
                      let* q := d_floordiv int_ops l2 (fold_left (d_mul int_ops) ks (d_of_Z int_ops 1)) in list_upd al2 u q
          end in Ok (al, if length known + length unknown =? 1 then n1 else true))).
    { assert (Hk : fsim slack (fun a b => Forall2 ev a b /\ (incl known K -> Forall (fun d => is_np d = false) a))
                     (mapM (list_get al1) known) (mapM (list_get al2) known)).
      { pose proof (fsim_mapM slack eq ev (list_get al1) (list_get al2) known known (Forall2_same _)) as M.
        assert (M' := M (fun a b (E : a = b) => match E with eq_refl => fsim_list_get slack ev al1 al2 a Hal end)). clear M.
        destruct (mapM (list_get al1) known) as [ks|] eqn:Ek, (mapM (list_get al2) known); cbn in M' |- *; auto.
        split; [exact M'|]. intros Hi. eapply mapM_get_py; eauto. }
      apply (fsim_bind _ _ _ _ _ _ _ Hk). clear Hk. intros ks1 ks2 [Hks Hpy]. pose proof (product_ev _ _ Hks) as Hp.
      assert (Hpp : incl known K -> is_np (product O ks1) = false) by (intros X; apply product_py, Hpy, X). unfold product in Hp, Hpp.
      set (p1 := fold_left (d_mul O) ks1 (d_of_Z O 1)) in *. set (p2 := fold_left (d_mul int_ops) ks2 (d_of_Z int_ops 1)) in *.
      clearbody p1 p2. destruct (is_np l1 || is_np p1) eqn:Enp.
      - (* not checked *)
        destruct HK as [[HK Hpy']|[Hsk EK]]; [rewrite (Hpp HK), (Hlp Hpy') in Enp; discriminate|].
        rewrite (both_np _ _ Enp). destruct unknown as [|u un].
        + cbn [both_ints d_int int_ops]. destruct (l2 =? p2)%Z; [|apply fsim_slack, Hsk; left; reflexivity].
          cbn [bind]. split; [exact Hst|split; [exact Hal|reflexivity]].
        + cbn [both_ints d_int int_ops]. destruct (p2 =? 0)%Z eqn:E0; [apply fsim_slack, Hsk; right; reflexivity|].
          unfold raise_if. destruct (negb (l2 mod p2 =? 0)%Z); [apply fsim_slack, Hsk; left; reflexivity|]. cbn [bind].
          destruct (div_ev l1 p1 l2 p2 Hl Hp) as (q & Eq & Hq); [apply Z.eqb_neq, E0|]. rewrite Eq.
          cbn [d_floordiv int_ops]. rewrite E0. cbn [bind]. apply Hput; [exact Hq|right; exact EK].
      - apply orb_false_iff in Enp as [Enl Enp]. rewrite (both_py l1 p1 l2 p2 Hl Hp Enl Enp). destruct unknown as [|u un].
        + cbn [both_ints d_int int_ops]. destruct (l2 =? p2)%Z; [|cbn; auto].
          cbn [bind]. split; [exact Hst|split; [exact Hal|reflexivity]].
        + cbn [both_ints d_int int_ops]. destruct (p2 =? 0)%Z eqn:E0; [cbn; auto|].
          unfold raise_if. destruct (negb (l2 mod p2 =? 0)%Z); [cbn; auto|]. cbn [bind].
          destruct (div_ev l1 p1 l2 p2 Hl Hp) as (q & Eq & Hq); [apply Z.eqb_neq, E0|]. rewrite Eq.
          cbn [d_floordiv int_ops]. rewrite E0. cbn [bind]. apply Hput; [exact Hq|left; exact (div_py _ _ _ Eq Enl Enp)]. }
    destruct known as [|k0 known]; [destruct unknown as [|u [|u' un]]|]; try exact G.
    apply (Hput u l1 l2); [exact Hl|]. destruct HK as [[_ HK]|[_ HK]]; [left; exact (Hlp HK)|right; exact HK].
  Qed.

  Definition cooked_value (k1 : cooked anyint) : cooked Z := {|
    k_init := option_map (map int_value) (k_init k1); k_reorder := k_reorder k1; k_reduced := k_reduced k1;
    k_added := map (fun '(p, d) => (p, int_value d)) (k_added k1); k_final := option_map (map int_value) (k_final k1); k_naxes := k_naxes k1 |}.

  Lemma ev_map l1 l2 : Forall2 ev l1 l2 -> map int_value l1 = l2.
  Proof. intros H. induction H as [|a b l1 l2 H _ IH]; [reflexivity|]. cbn [map]. rewrite IH, H. reflexivity. Qed.

  Lemma reconstruct_fsim r sh s sizes : Forall2 ev sh s ->
    ((forall i known unknown, In (i, (known, unknown)) (enumerate (r_input r)) -> incl known K) /\ py_shape sh \/ may_skip /\ K = []) ->
    (forall name z p, In (name, NpInt z) sizes -> dict_get str_eqb name (r_name2elem r) = Some p -> ~ In p K) ->
    fsim slack (fun k1 k2 => cooked_value k1 = k2) (reconstruct O r sh sizes) (reconstruct int_ops r s (as_ints sizes)).
  Proof.
    intros Hsh HK Hz. unfold reconstruct.
    apply (fsim_bind _ (fun a b => strict a /\ Forall2 ev a b)).
    { assert (H0 : strict (map (d_of_Z O) (r_elementary r)) /\ Forall2 ev (map (d_of_Z O) (r_elementary r)) (map (d_of_Z int_ops) (r_elementary r))).
      { split.
        - intros p d _ E. apply nth_error_In, in_map_iff in E as [z [<- _]]. reflexivity.
        - generalize (r_elementary r). intros l. induction l; constructor; [reflexivity|assumption]. }
      revert H0. generalize (map (d_of_Z O) (r_elementary r)) (map (d_of_Z int_ops) (r_elementary r)).
      unfold as_ints. induction sizes as [|[name d] sizes IH]; intros a b H0; [exact H0|]. cbn [map foldM].
      apply (fsim_bind _ (fun a b => strict a /\ Forall2 ev a b)).
      - destruct (dict_get str_eqb name (r_name2elem r)) as [p|] eqn:Ed; cbn [of_option bind]; [|cbn; auto].
        pose proof (fsim_list_upd slack ev a b p d (int_value d) (proj2 H0) eq_refl) as G.
        destruct (list_upd a p d) as [a'|] eqn:E1, (list_upd b p (int_value d)); cbn in G |- *; auto.
        split; [|exact G]. intros q d' Hq Eg. rewrite (list_upd_get _ _ _ _ _ E1) in Eg. destruct (q =? p) eqn:Eq.
        + injection Eg as <-. apply Nat.eqb_eq in Eq. subst q. destruct d as [z|z]; [reflexivity|].
          exfalso. exact (Hz name z p (or_introl eq_refl) Ed Hq).
        + exact (proj1 H0 q d' Hq Eg).
      - intros a' b' H'. apply IH; [|exact H']. intros n z p Hin. apply (Hz n z p). right. exact Hin. }
    intros al1 al2 [Hst Hal].
    apply (fsim_bind _ strel).
    { assert (H0 : strel (al1, false) (al2, false)) by (split; [exact Hst|split; [exact Hal|reflexivity]]).
      revert H0. generalize (al1, false) (al2, false).
      assert (HK' : forall x, In x (enumerate (r_input r)) -> incl (fst (snd x)) K /\ py_shape sh \/ may_skip /\ K = []).
      { intros [i [kn un]] Hin. destruct HK as [[HK Hp]|HK]; [left; split; [exact (HK i kn un Hin)|exact Hp]|right; exact HK]. }
      revert HK'. generalize (enumerate (r_input r)). intros l. induction l as [|[i [kn un]] l IH]; intros HK' a b H0; [exact H0|].
      cbn [foldM]. apply (fsim_bind _ strel).
      - apply infer_fsim; [exact Hsh|exact (HK' _ (or_introl eq_refl))|exact H0].
      - intros a' b' H'. apply IH; [|exact H']. intros x Hx. apply HK'. right. exact Hx. }
    intros [a1 n1] [a2 n2] [_ [Ha En]]. cbn [fst snd] in Ha, En. subst n2.
    apply (fsim_bind _ (Forall2 (Forall2 ev))).
    { apply (fsim_mapM _ eq); [apply Forall2_same|]. intros g ? <-. apply (fsim_mapM _ eq); [apply Forall2_same|].
      intros i ? <-. apply fsim_list_get. exact Ha. }
    intros g1 g2 Hg. apply (fsim_bind _ (fun a b => map (fun '(p, d) => (p, int_value d)) a = b)).
    { assert (M : fsim slack (Forall2 (fun a b => fst a = fst b /\ ev (snd a) (snd b)))
                    (mapM (fun '(p, e) => let* l := list_get a1 e in Ok (p, l)) (r_added r)) (mapM (fun '(p, e) => let* l := list_get a2 e in Ok (p, l)) (r_added r))).
      { apply (fsim_mapM _ eq); [apply Forall2_same|]. intros [p e] ? <-. apply (fsim_bind _ ev); [apply fsim_list_get; exact Ha|].
        intros x y Hxy. cbn. auto. }
      destruct (mapM (fun '(p, e) => let* l := list_get a1 e in Ok (p, l)) (r_added r)) as [d1|], (mapM (fun '(p, e) => let* l := list_get a2 e in Ok (p, l)) (r_added r)) as [d2|]; cbn in M |- *; auto.
      induction M as [|[p d] [q z] d1 d2 [E1 E2] _ IH]; [reflexivity|]. cbn [map]. rewrite IH. cbn in E1, E2. unfold ev in E2. subst. reflexivity. }
    intros d1 d2 <-. cbn. unfold cooked_value. cbn [k_init k_reorder k_reduced k_added k_final k_naxes].
    assert (Ef : existsb (fun g => negb (length g =? 1)) g1 = existsb (fun g => negb (length g =? 1)) g2).
    { induction Hg as [|x y g1 g2 Hxy _ IH]; [reflexivity|]. cbn [existsb]. rewrite IH, (Forall2_len Hxy). reflexivity. }
    rewrite <- Ef, map_length. f_equal.
    - destruct n1; [|reflexivity]. cbn [option_map]. f_equal. apply ev_map, Forall2_firstn. exact Ha.
    - destruct (existsb (fun g => negb (length g =? 1)) g1); [|reflexivity]. cbn [option_map]. f_equal.
      clear Ef. induction Hg as [|x y g1 g2 Hxy _ IH]; [reflexivity|]. cbn [map]. rewrite IH. f_equal. exact (product_ev _ _ Hxy).
  Qed.
End Reconstruct.

Lemma apply_value {T} (B : backend T Z) (k : cooked anyint) x red :
  apply_cooked (anyint_backend B) k x red = apply_cooked B (cooked_value k) x red.
Proof.
  unfold apply_cooked, cooked_value. cbn [k_init k_reorder k_reduced k_added k_final k_naxes].
  destruct (k_init k); cbn [option_map anyint_backend b_reshape b_transpose b_add_axes];
    destruct (k_added k) as [|[q d] more]; cbn [map]; destruct (k_final k); reflexivity.
Qed.
