(** * einsum as repeat, product and reduce *)
From Verif Require Import Py Tensor ListFacts TensorFacts SpecSem SpecGrammar SpecForms SpecEinsum SpecPattern SpecShape SpecOps SpecElements SpecProducts Parsing Recipe Ops Backends Einsum Api ParseFacts ParseFacts2 ParseFacts3 StepFacts FrontFacts FrontFacts2 FrontFacts3 MainFacts ReduceFacts MainFacts3 RedFacts Laws CallFacts ApiFacts ApiFacts2 ApiFacts3 ApiFacts7 ShapeLaws RelabelLaws PackLaws EinsumFacts EinsumFacts2 EinsumFacts3 EinsumFacts4 EinsumLaws EinsumLaws2.

Lemma axes_dots l : has_dots (axes_named l) = false.
Proof. unfold has_dots. rewrite atoms_names. apply names_no. reflexivity. Qed.
Lemma axes_numbers l : has_numbers (axes_named l) = false.
Proof. unfold has_numbers. rewrite atoms_names. apply names_no. reflexivity. Qed.
Lemma axes_ungrouped l : ~ In ell_name l -> ungrouped (axes_named l).
Proof. intros H i Hi. apply in_map_iff in Hi as [s [<- Hs]]. right. exists s. split; auto. intros ->. auto. Qed.
Lemma axes_entries l : entries (axes_named l) = map EName l.
Proof. unfold entries, axes_named. rewrite map_map. reflexivity. Qed.
Lemma reads_distinct U q L R : reads U q L R -> NoDup (keys L) /\ NoDup (keys R).
Proof.
  assert (W : forall s E, written U s E -> NoDup (keys E)) by (intros s E [ts [_ [_ [H1 [H2|H2]]]]]; [discriminate|]; cbn [andb negb] in H2;
    assert (EF : forall l : list pystr, filter (fun _ => true) l = l) by (induction l as [|c l IH]; cbn; congruence); rewrite EF in H2; exact H2).
  intros (l & r & _ & H & H'). split; eauto.
Qed.

Lemma other_keys len ns all s : In s (map fst (other_sizes len ns all)) <-> In s all /\ ~ In s ns.
Proof.
  unfold other_sizes. rewrite map_map, map_id, filter_In. cbn. rewrite negb_true_iff. split; intros [H1 H2]; split; auto.
  - intros X. apply (proj2 (str_mem_In s ns)) in X. congruence.
  - destruct (str_mem s ns) eqn:E; auto. apply (proj1 (str_mem_In s ns)) in E. contradiction.
Qed.

Section Names.
  Context {A : Type} (r : runtime A) (Hok : runtime_ok r).
  Let U := rt_unicode r.

  (** repeat brings all tensors to the same axes *)
  Lemma repeat_names q ns all (len : pystr -> nat) (x : tensor A) : reads U q (axes_named ns) (axes_named all) -> wf x -> shp x = map len ns -> incl ns all ->
    ~ In ell_name all -> (forall s, In s all -> ~ In s [lit "tensor"; lit "pattern"; lit "reduction"]) ->
    exists y, repeat_ r (One x) q (other_sizes len ns all) = Ok y /\ wf y /\ shp y = map len all /\
      forall ix, (forall s, In s all -> ix s < len s) -> get y (map ix all) = get x (map ix ns).
  Proof.
    intros Hr Hw Hs Hi He Hres. set (L := axes_named ns). set (R := axes_named all). set (sizes := other_sizes len ns all).
    destruct (reads_distinct _ _ _ _ Hr) as [NL NR]. rewrite keys_names in NL, NR.
    set (lenL := fun a => match a with SpecPattern.LName s => len s | LDots _ => 0 | LNum _ n => Z.to_nat n end).
    assert (EL : left_groups 0 L = map (fun s => [SpecPattern.LName s]) ns).
    { unfold left_groups, L. rewrite axes_dots. apply groups_names. discriminate. }
    assert (ER : right_groups 0 L R = map (fun s => [SpecPattern.LName s]) all).
    { unfold right_groups, L, R. rewrite axes_dots. apply groups_names. discriminate. }
    assert (Hn : NoDup (map fst sizes)).
    { unfold sizes, other_sizes. rewrite map_map, map_id. apply NoDup_filter. auto. }
    assert (Hrs : no_reserved sizes) by (intros s X; apply other_keys in X as [X _]; auto).
    assert (Hsz : repeat_sizes_ok r q sizes).
    { intros _ L' R' s _ X. unfold sizes, other_sizes in X. apply in_map_iff in X as [s' [X _]]. injection X as _ X. lia. }
    assert (Hc : call_ok U Repeating q sizes (shp x) L R 0 lenL).
    { constructor.
      - exact Hr.
      - unfold ident_ok, L, R. rewrite !keys_names. split; [apply axes_numbers|]. split; auto. intros s X. apply in_or_app.
        destruct (in_dec (list_eq_dec N.eq_dec) s ns) as [Y|Y]; [left; auto|right; apply other_keys; auto].
      - unfold R. rewrite axes_dots. discriminate.
      - unfold L. rewrite axes_dots. discriminate.
      - unfold rank_fits, L. rewrite axes_dots, Hs. unfold axes_named. rewrite !map_length. auto.
      - intros s X. apply other_keys in X as [X _]. split; [intros ->; auto|]. unfold L, R. rewrite !keys_names. apply in_or_app. auto.
      - intros g X. rewrite EL in X. apply in_map_iff in X as [s [<- X]]. cbn. destruct (negb _); cbn; lia.
      - unfold fits. rewrite EL, ER, !concat_single. split; [|split].
        + unfold gshape. rewrite map_map, Hs. apply map_ext. intros s. cbn. lia.
        + intros k n X. apply in_app_iff in X as [X|X]; apply in_map_iff in X as [s [X _]]; discriminate.
        + intros s z X. unfold sizes, other_sizes in X. apply in_map_iff in X as [s' [X _]]. injection X as -> <-. reflexivity.
      - intros g X Y. rewrite EL in X. apply in_map_iff in X as [s [<- X]]. cbn in *. destruct (negb _); cbn; [discriminate|congruence].
      - intros [X _]. unfold L in X. rewrite axes_dots in X. discriminate. }
    destruct (proj2 (repeat_accepts r Hok x q sizes Hn Hw Hsz)) as [y Ey]; [split; auto; exists L, R, 0, lenL; auto|].
    exists y. split; auto. apply (repeat_iff r Hok x q sizes L R 0 lenL y Hn Hw Hrs Hc) in Ey. destruct Ey as [Wy [Sy Gy]].
    rewrite ER, gshape_single, concat_single, map_map in Sy by apply single_groups. split; auto. split; auto. intros ix Hx.
    specialize (Gy (fun a => match a with SpecPattern.LName s => ix s | _ => 0 end)). rewrite EL, ER, !concat_single in Gy.
    rewrite !gindex_single, !concat_single, !map_map in Gy by apply single_groups. apply Gy.
    intros a X. apply in_app_iff in X as [X|X]; apply in_map_iff in X as [s [<- X]]; cbn; auto.
  Qed.
End Names.

Section Product.
  Context {A : Type} (r : runtime A) (Hok : runtime_ok r).
  Context (add mul : A -> A -> A) (zero one : A) (lib : pystr -> list (tensor A) -> result (tensor A)).
  Hypothesis add_comm : forall a b, add a b = add b a.
  Hypothesis add_assoc : forall a b c, add a (add b c) = add (add a b) c.
  Hypothesis add_zero : forall a, add zero a = a.
  Hypothesis mul_one : forall a, mul a one = a.
  Hypothesis Hsum : forall vs, rt_red r (lit "sum") vs = Ok (fold_right add zero vs).
  Hypothesis Hlib : einsum_contract add mul zero one lib.
  Let U := rt_unicode r.
  Let HU : unicode_ok U := ro_unicode r Hok.

  Definition lenE (len : pystr -> nat) (l : lab pystr) : nat := match l with SpecEinsum.LName s => len s | LDot _ => 0 end.
  Lemma names_term l : to_term (map EName l) = map Some l.
  Proof. unfold to_term. rewrite map_map. reflexivity. Qed.
  Lemma some_names (l : list pystr) : term_names (map Some l) = l.
  Proof. induction l as [|s l IH]; [reflexivity|]. cbn. f_equal. exact IH. Qed.
  Lemma some_labs e (l : list pystr) : term_labs e (map Some l) = map SpecEinsum.LName l.
  Proof. induction l as [|s l IH]; [reflexivity|]. cbn. f_equal. exact IH. Qed.
  Lemma some_dots (l : list pystr) : term_dots (map Some l) = 0.
  Proof. induction l as [|s l IH]; [reflexivity|]. exact IH. Qed.
  Lemma some_fits len l (x : tensor A) : wf x -> shp x = map len l -> operand_fits (lenE len) (map Some l) x.
  Proof.
    intros Hw Hs. split; auto. split; [rewrite some_dots; lia|]. unfold operand_labs. rewrite some_labs, Hs. apply Forall2_maps. intros s _. reflexivity.
  Qed.
  Lemma some_spare len (l : list pystr) (x : tensor A) : shp x = map len l -> spare (map Some l) x = 0.
  Proof. intros E. unfold spare. rewrite E, map_length, some_names. lia. Qed.

  Lemma element_names ix (len : pystr -> nat) l (x : tensor A) a : shp x = map len l ->
    get x (map (fun s => if len s =? 1 then 0 else ix (SpecEinsum.LName s)) l) = Some a -> element_at zero ix (map Some l) x = a.
  Proof. intros E H. unfold element_at, operand_labs. rewrite some_labs, E, map2_maps, H. reflexivity. Qed.

  Notation ops := (list (list pystr * pystr * tensor A)).
  Notation names_of o := (fst (fst o)).

  Lemma einsum_product (len : pystr -> nat) (all rs : list pystr) (os : ops) p q :
    (forall ns t x, In (ns, t, x) os -> wf x /\ shp x = map len ns /\ incl ns all /\ reads U t (axes_named ns) (axes_named all)) ->
    incl all (flat_map (fun o => names_of o) os) -> incl rs all -> ~ In ell_name all ->
    (forall s, In s all -> ~ In s [lit "tensor"; lit "pattern"; lit "reduction"]) -> length all <= 52 ->
    einsum_reads U p (map (fun o => map EName (names_of o)) os) (map EName rs) -> reads U q (axes_named all) (axes_named rs) ->
    exists ys y, Forall2 (fun '(ns, t, x) z => repeat_ r (One x) t (other_sizes len ns all) = Ok z) os ys /\
      einsum_with U lib (map inl (map snd os) ++ [inr p]) = Ok y /\
      reduce r (One (t_product mul one (map len all) ys)) q (RStr (lit "sum")) [] = Ok y.
  Proof.
    intros Ho Hall Hrs He Hres H52 Hp Hq. destruct (reads_distinct _ _ _ _ Hq) as [Na Nr]. rewrite keys_names in Na, Nr.
    assert (Y : exists ys, Forall2 (fun o z => repeat_ r (One (snd o)) (snd (fst o)) (other_sizes len (names_of o) all) = Ok z /\ wf z /\ shp z = map len all /\
        forall ix, (forall s, In s all -> ix s < len s) -> get z (map ix all) = get (snd o) (map ix (names_of o))) os ys).
    { assert (X : forall o, In o os -> wf (snd o) /\ shp (snd o) = map len (names_of o) /\ incl (names_of o) all /\ reads U (snd (fst o)) (axes_named (names_of o)) (axes_named all)) by (intros [[ns t] x] X; apply Ho in X; auto).
      clear -X He Hres Hok. induction os as [|o os IH]; [exists []; constructor|]. destruct IH as [ys IH]; [intros o' X'; apply X; right; auto|].
      destruct (X o (or_introl eq_refl)) as (X1 & X2 & X3 & X4). destruct (repeat_names r Hok _ _ _ len _ X4 X1 X2 X3 He Hres) as [y Hy]. exists (y :: ys). constructor; auto. }
    destruct Y as [ys HY]. set (z := t_product mul one (map len all) ys).
    destruct (t_product_get mul one (map len all) ys) as [Wz [Sz Gz]].
    { clear -HY. induction HY as [|o y os ys (_ & W & S & _) _ IH]; constructor; auto. }
    fold z in Wz, Sz, Gz.
    assert (UA : ungrouped (axes_named all)) by (apply axes_ungrouped; auto).
    assert (UR : ungrouped (axes_named rs)) by (apply axes_ungrouped; auto).
    destruct (einsum_one r Hok add mul zero one lib add_comm add_assoc add_zero mul_one Hsum Hlib z q (axes_named all) (axes_named rs) 0) as [y' [E1 E2]]; auto.
    { rewrite !keys_names. auto. } { rewrite !axes_dots. reflexivity. }
    { unfold rank_fits. rewrite axes_dots, Sz. unfold axes_named. rewrite !map_length. auto. } { rewrite keys_names. auto. }
    exists ys, y'. split; [|split; [|exact E2]].
    { clear -HY. induction HY as [|[[ns t] x] y os ys (E & _) _ IH]; constructor; auto. }
    (* the two calls in terms of the formula *)
    assert (Hq' : einsum_reads U q [map EName all] (map EName rs)).
    { destruct Hq as (l & l' & Ep & Wl & Wl'). exists [l], l'. split; [exact Ep|]. split; [discriminate|]. rewrite <- !axes_entries.
      split; [|apply ungrouped_lists; auto]. constructor; [apply ungrouped_lists; auto|constructor]. }
    set (Ls := map (fun o : list pystr * pystr * tensor A => map EName (names_of o)) os) in *.
    assert (Ts : map to_term Ls = map (fun o => map Some (names_of o)) os).
    { unfold Ls. rewrite map_map. apply map_ext. intros o. apply names_term. }
    assert (Hs : forall o, In o os -> wf (snd o) /\ shp (snd o) = map len (names_of o) /\ incl (names_of o) all).
    { intros [[ns t] x] X. apply Ho in X as (X1 & X2 & X3 & _). auto. }
    assert (M : map2 spare (map to_term Ls) (map snd os) = map (fun _ => 0) os).
    { rewrite Ts, map2_maps. apply map_ext_in. intros o X. apply (some_spare len). apply Hs; auto. }
    assert (M0 : list_max (map2 spare (map to_term Ls) (map snd os)) = 0).
    { rewrite M. clear. unfold list_max. induction os as [|o os IH]; [reflexivity|]. cbn in *. exact IH. }
    assert (G : good_call (lenE len) (map to_term Ls) (to_term (map EName rs)) (map snd os)).
    { rewrite names_term. split; [|split; [|split; [|split; [|split]]]].
      - rewrite Ts. apply Forall2_maps. intros o X. destruct (Hs o X) as (X1 & X2 & _). apply some_fits; auto.
      - rewrite some_names. auto.
      - rewrite some_names. intros s X. apply Hrs, Hall in X. apply in_flat_map in X as [o [X1 X2]]. apply in_flat_map. exists (map Some (names_of o)).
        rewrite some_names. split; auto. rewrite Ts. apply in_map_iff. eauto.
      - rewrite some_dots. lia.
      - intros X. apply in_concat in X as [t [X1 X2]]. rewrite Ts in X1. apply in_map_iff in X1 as [o [<- _]]. apply in_map_iff in X2 as [s [X2 _]]. discriminate.
      - rewrite M0. lia. }
    assert (G' : good_call (lenE len) (map to_term [map EName all]) (to_term (map EName rs)) [z]).
    { cbn [map]. rewrite !names_term. split; [|split; [|split; [|split; [|split]]]].
      - constructor; [|constructor]. apply some_fits; auto.
      - rewrite some_names. auto.
      - cbn [flat_map]. rewrite app_nil_r, !some_names. auto.
      - rewrite some_dots. lia.
      - cbn [concat]. rewrite app_nil_r. intros X. apply in_map_iff in X as [s [X _]]. discriminate.
      - cbn [map2]. rewrite (some_spare len) by auto. cbn. lia. }
    assert (N52 : length (distinct (all_names Ls)) <= 52).
    { etransitivity; [|exact H52]. apply NoDup_incl_length; [apply distinct_NoDup|]. intros s X. apply (proj1 (distinct_In _ _)) in X. unfold all_names in X.
      apply in_flat_map in X as [l [X1 X2]]. unfold Ls in X1. apply in_map_iff in X1 as [o [<- X1]]. rewrite <- to_term_names, names_term, some_names in X2. apply Hs in X1 as (_ & _ & X1). auto. }
    assert (N52' : length (distinct (all_names [map EName all])) <= 52).
    { etransitivity; [|exact H52]. apply NoDup_incl_length; [apply distinct_NoDup|]. intros s X. apply (proj1 (distinct_In _ _)) in X. unfold all_names in X. cbn [flat_map] in X.
      rewrite app_nil_r, <- to_term_names, names_term, some_names in X. auto. }
    destruct (einsum_formula U HU add mul zero one add_comm add_assoc lib p Ls (map EName rs) (map snd os) (lenE len) Hlib Hp N52 G) as [y [Ey Fy]].
    destruct (einsum_formula U HU add mul zero one add_comm add_assoc lib q [map EName all] (map EName rs) [z] (lenE len) Hlib Hq' N52' G') as [y2 [Ey2 Fy2]].
    change (map inl [z] ++ [inr q]) with [@inl (tensor A) pystr z; inr q] in Ey2. fold U in E1. rewrite E1 in Ey2. injection Ey2 as <-.
    rewrite Ey. f_equal. cbn [map] in Fy2. rewrite !names_term in Fy2. rewrite names_term in Fy.
    assert (OL : out_labs (map to_term Ls) (map snd os) (map Some rs) = map SpecEinsum.LName rs) by (unfold out_labs; apply some_labs).
    assert (OL' : out_labs [map Some all] [z] (map Some rs) = map SpecEinsum.LName rs) by (unfold out_labs; apply some_labs).
    destruct (summed_exists (map to_term Ls) (map Some rs) (map snd os)) as [ms Hms].
    assert (AL : forall l, In l (all_labs (map to_term Ls) (map snd os)) <-> In l (map SpecEinsum.LName all)).
    { intros l. unfold all_labs. rewrite Ts, map2_maps, in_concat. split.
      - intros [m [X1 X2]]. apply in_map_iff in X1 as [o [<- X1]]. unfold operand_labs in X2. rewrite some_labs in X2. apply in_map_iff in X2 as [s [<- X2]]. apply in_map. apply Hs in X1 as (_ & _ & X1). auto.
      - intros X. apply in_map_iff in X as [s [<- X]]. apply Hall in X. apply in_flat_map in X as [o [X1 X2]]. exists (operand_labs (map Some (names_of o)) (snd o)).
        split; [apply in_map_iff; eauto|]. unfold operand_labs. rewrite some_labs. apply in_map. auto. }
    assert (Hms' : summed [map Some all] (map Some rs) [z] ms).
    { destruct Hms as [N X]. split; auto. intros l. rewrite X, AL, OL, OL'. unfold all_labs. cbn [map2 concat]. rewrite app_nil_r. unfold operand_labs. rewrite some_labs. reflexivity. }
    apply (einsum_same add mul zero one (lenE len) _ _ _ _ _ _ ms ms y y' (Fy ms Hms) (Fy2 ms Hms')).
    - exact (eq_trans OL (eq_sym OL')).
    - rewrite OL. clear -Nr. induction Nr as [|s l Hs _ IH]; [constructor|]. cbn. constructor; auto. intros X. apply in_map_iff in X as [s' [X1 X2]]. injection X1 as ->. auto.
    - rewrite OL. intros ix Hx. f_equal. apply map_ext_in. intros v Hv. set (jx := assign (lab_eqb str_eqb) ix ms v).
      assert (Wj : forall s, In s all -> jx (SpecEinsum.LName s) < len s).
      { intros s X. change (len s) with (lenE len (SpecEinsum.LName s)). destruct Hms as [N Hm]. apply indices_In in Hv.
        destruct (in_dec (list_eq_dec N.eq_dec) s rs) as [Hr|Hr].
        - assert (Y : ~ In (SpecEinsum.LName s) ms) by (intros Y; apply Hm in Y as [_ Y]; apply Y; rewrite OL; apply in_map; auto).
          unfold jx. rewrite (assign_out (lab_eqb str_eqb) (lab_eqb_eq str_eqb str_eqb_eq)) by auto. apply Hx. apply in_map. auto.
        - assert (Y : In (SpecEinsum.LName s) ms).
          { apply Hm. split; [apply AL, in_map; auto|]. rewrite OL. intros Y. apply in_map_iff in Y as [s' [Y1 Y2]]. injection Y1 as ->. auto. }
          apply (within_assign (lab_eqb str_eqb) (lab_eqb_eq str_eqb str_eqb_eq) (lenE len) ix ms v N Hv _ Y). }
      set (kx := fun s => if len s =? 1 then 0 else jx (SpecEinsum.LName s)).
      assert (Wk : forall s, In s all -> kx s < len s).
      { intros s X. unfold kx. specialize (Wj s X). destruct (Nat.eqb_spec (len s) 1); lia. }
      unfold product_at at 2. cbn [map2 fold_right]. rewrite mul_one. rewrite Ts. unfold product_at. rewrite map2_maps. symmetry.
      apply (element_names jx len all z); auto. fold kx. change (map (fun s => kx s) all) with (map kx all). apply Gz.
      + apply inb_within. intros s X. auto.
      + clear -HY Wk Hs. induction HY as [|o t os ys (_ & _ & _ & X) _ IH]; constructor; [|apply IH; intros o' Ho'; apply Hs; right; auto].
        destruct (Hs o (or_introl eq_refl)) as (W & S & I). rewrite (X kx Wk). destruct (get_wf (snd o) (map kx (names_of o)) W) as [a Ea].
        * rewrite S. apply inb_within. intros s Y. auto.
        * rewrite Ea. f_equal. symmetry. apply (element_names jx len); auto.
  Qed.
End Product.
