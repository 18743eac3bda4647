(** * einsum: the gradient with respect to an operand with axes of its own *)
From Verif Require Import Py Tensor ListFacts TensorFacts SpecSem SpecGrammar SpecForms SpecElements SpecAdjoint SpecPattern SpecOps SpecShape SpecProducts Parsing Recipe Ops Backends Einsum Api StepFacts ReduceFacts EinsumFacts EinsumFacts2 EinsumFacts3 EinsumFacts4 EinsumLaws EinsumLaws2 EinsumLaws3 EinsumLaws4 AdjointFacts GradFacts SpecEinsum.

Section Calls.
  Context {A : Type} (r : runtime A) (Hok : runtime_ok r).
  Let U := rt_unicode r.
  Context (add mul : A -> A -> A) (zero one : A) (lib : pystr -> list (tensor A) -> result (tensor A)).
  Hypothesis Hsp : sums_and_products add mul zero.
  Hypothesis mul_comm : forall a b, mul a b = mul b a.
  Hypothesis mul_assoc : forall a b c, mul a (mul b c) = mul (mul a b) c.
  Hypothesis mul_one : forall a, mul one a = a.
  Hypothesis Hlib : einsum_contract add mul zero one lib.
  Notation dot := (inner add mul zero).
  Let HU : unicode_ok U := ro_unicode r Hok.
  Let add_comm := sp_comm _ _ _ Hsp.
  Let add_assoc := sp_assoc _ _ _ Hsp.

  Lemma names_labs k ns : term_labs k (to_term (map EName ns)) = map LName ns.
  Proof. unfold to_term, term_labs. induction ns as [|s ns IH]; [reflexivity|]. cbn in *. rewrite IH. reflexivity. Qed.
  Lemma names_entries ns : entry_names (map EName ns) = ns.
  Proof. unfold entry_names. induction ns as [|s ns IH]; [reflexivity|]. cbn in *. rewrite IH. reflexivity. Qed.
  Lemma names_no_dots ns : ~ In EDots (map EName ns).
  Proof. rewrite in_map_iff. intros [s [H _]]. discriminate. Qed.

  Lemma einsum_gradient_repeat p p' q Lp nl nm Ls R us x vs len y z :
    einsum_reads U p (Lp ++ map EName nl :: Ls) R -> einsum_reads U p' (Lp ++ R :: Ls) (map EName nm) ->
    reads U q (axes_named nm) (axes_named nl) ->
    ~ In ell_name nl -> (forall s, In s nl -> ~ In s [lit "tensor"; lit "pattern"; lit "reduction"]) ->
    length Lp = length us -> length (distinct (all_names (Lp ++ map EName nl :: Ls))) <= 52 ->
    good_call len (map to_term (Lp ++ map EName nl :: Ls)) (to_term R) (us ++ x :: vs) ->
    ~ In EDots R -> NoDup nl -> NoDup nm ->
    (forall a, In a nm <-> In a nl /\ (In a (all_names (Lp ++ Ls)) \/ In a (entry_names R))) ->
    einsum_with U lib (map inl (us ++ x :: vs) ++ [inr p]) = Ok y -> wf z -> shp z = shp y ->
    exists v w, einsum_with U lib (map inl (us ++ z :: vs) ++ [inr p']) = Ok v /\
      repeat_ r (One v) q (other_sizes (fun s => len (LName s)) nm nl) = Ok w /\ wf w /\ shp w = shp x /\ dot y z = dot x w.
  Proof.
    intros R1 R2 Rq He Hres Lu H52 G DR Nl Nm Inm Ey Wz Sz.
    destruct (einsum_formula U HU add mul zero one add_comm add_assoc lib p _ R _ _ Hlib R1 H52 G) as [y' [Ey' Fy]]. rewrite Ey in Ey'. injection Ey' as <-.
    destruct (summed_exists (map to_term (Lp ++ map EName nl :: Ls)) (to_term R) (us ++ x :: vs)) as [ms Hms]. specialize (Fy ms Hms).
    assert (Sz' : shp z = map len (out_labs (map to_term (Lp ++ map EName nl :: Ls)) (us ++ x :: vs) (to_term R))) by (rewrite Sz; apply Fy).
    assert (Lu' : length (map to_term Lp) = length us) by (rewrite map_length; auto).
    rewrite !map_app in *. cbn [map] in *.
    assert (NL' : NoDup (term_names (to_term (map EName nl)))) by (rewrite to_term_names, names_entries; auto).
    assert (NM' : NoDup (term_names (to_term (map EName nm)))) by (rewrite to_term_names, names_entries; auto).
    assert (DL' : forall ns, In None (to_term R) -> In None (to_term (map EName ns))) by (intros ns; rewrite !none_dots; tauto).
    assert (Dt : term_dots (to_term (map EName nm)) <= 1).
    { rewrite no_dots; [lia|]. rewrite none_dots. apply names_no_dots. }
    assert (Sx : shp x = map len (out_labs (map to_term Lp ++ to_term (map EName nl) :: map to_term Ls) (us ++ x :: vs) (to_term (map EName nl)))).
    { destruct (sw_fits len _ _ _ _ _ _ _ Lu' G) as (_ & (_ & _ & F) & _). unfold operand_labs, out_labs in *. rewrite names_labs in *.
      clear -F. revert F. generalize (shp x). induction nl as [|s l IH]; intros d F; inversion F; subst; [reflexivity|]. cbn. f_equal; [|apply IH; auto]. assumption. }
    assert (G' : good_call len (map to_term Lp ++ to_term R :: map to_term Ls) (to_term (map EName nm)) (us ++ z :: vs)).
    { apply (sw_good len _ _ _ _ us vs x z Lu' G (DL' nl) Sx Wz Sz' (to_term (map EName nm))); auto. rewrite <- map_app, to_term_names, to_terms_names, to_term_names, names_entries.
      intros a Ha. apply Inm in Ha as [_ [Ha|Ha]]; apply in_or_app; auto. }
    assert (N2 : length (distinct (all_names (Lp ++ R :: Ls))) <= 52).
    { eapply fewer_names; [|exact H52]. destruct G as (_ & _ & HI & _). change (to_term ?l :: map to_term Ls) with (map to_term (l :: Ls)) in HI.
      rewrite <- map_app, to_terms_names, to_term_names in HI. fold (all_names (Lp ++ map EName nl :: Ls)) in HI. intros s Hs. unfold all_names in Hs. rewrite flat_map_app in Hs. cbn [flat_map] in Hs. rewrite !in_app_iff in Hs.
      destruct Hs as [Hs|[Hs|Hs]]; [|auto|]; unfold all_names; rewrite flat_map_app; cbn [flat_map]; rewrite !in_app_iff; auto. }
    pose proof G' as G2. change (to_term R :: map to_term Ls) with (map to_term (R :: Ls)) in G2. rewrite <- map_app in G2.
    destruct (einsum_formula U HU add mul zero one add_comm add_assoc lib p' _ _ _ _ Hlib R2 N2 G2) as [v [Ev Fv]]. exists v.
    destruct (summed_exists (map to_term (Lp ++ R :: Ls)) (to_term (map EName nm)) (us ++ z :: vs)) as [mt Hmt]. specialize (Fv mt Hmt).
    rewrite map_app in *. cbn [map] in *. destruct Fv as (Wv & Sv & Gv). destruct Hmt as [Nmt Imt].
    rewrite (sw_out len _ _ _ _ us vs x z Lu' G (DL' nl) Sx Sz') in Sv, Gv.
    unfold out_labs in Sv, Gv, Imt. rewrite names_labs in Sv, Gv, Imt. rewrite map_map in Sv.
    assert (Iml : incl nm nl) by (intros a Ha; apply Inm in Ha; tauto).
    destruct (repeat_names r Hok q nm nl (fun s => len (LName s)) v Rq Wv Sv Iml He Hres) as (w & Ew & Ww & Sw & Gw).
    exists w. split; [first [exact Ev | rewrite map_app in Ev; exact Ev]|]. split; [exact Ew|]. split; [exact Ww|].
    assert (Sw' : shp w = map len (out_labs (map to_term Lp ++ to_term (map EName nl) :: map to_term Ls) (us ++ x :: vs) (to_term (map EName nl)))).
    { unfold out_labs. rewrite names_labs, map_map. exact Sw. }
    split; [congruence|].
    refine (sw_adjoint add mul zero one Hsp mul_comm mul_assoc mul_one len _ _ _ _ us vs x z Lu' G NL' (DL' nl) Sx Wz Sz' ms mt y w Hms Fy Nmt _ Ww Sw' _).
    - intros l. rewrite Imt. unfold out_labs. rewrite names_labs. split; intros [H1 H2]; (split; [exact H1|]); intros H3; apply H2; apply in_map_iff in H3 as (a & <- & Ha); apply in_map.
      + apply Inm. split; [exact Ha|]. apply (all_name _ _ a) in H1; [|destruct G' as [F _]; eapply Forall2_length; exact F].
        change (to_term ?l :: map to_term Ls) with (map to_term (l :: Ls)) in H1. rewrite <- map_app, to_terms_names in H1. unfold all_names in *.
        rewrite flat_map_app in *. cbn [flat_map] in H1. rewrite !in_app_iff in *. tauto.
      + auto.
    - unfold out_labs. rewrite !names_labs. intros ix Hix. rewrite map_map, (Gw (fun s => ix (LName s))).
      + specialize (Gv ix). rewrite map_map in Gv. apply Gv. intros l Hl. apply Hix. apply in_map_iff in Hl as (a & <- & Ha). apply in_map. auto.
      + intros s Hs. apply Hix. apply in_map. exact Hs.
  Qed.
End Calls.
