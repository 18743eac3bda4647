(** * einsum: the gradient with respect to an operand *)
From Coq Require Import Permutation.
From Verif Require Import Py Tensor ListFacts TensorFacts SpecSem SpecGrammar SpecForms SpecElements SpecAdjoint Parsing Recipe Ops Backends Einsum Api StepFacts ReduceFacts EinsumFacts EinsumFacts2 EinsumFacts3 EinsumFacts4 EinsumLaws EinsumLaws2 EinsumLaws4 AdjointFacts SpecEinsum.

Notation asg := (assign (lab_eqb str_eqb)).

Lemma indices_nil_or l (len : lab pystr -> nat) v : In v (indices (map len l)) -> length v = length l.
Proof. intros H. apply indices_In, inb_length in H. rewrite map_length in H. auto. Qed.

Section Dot.
  Context {A : Type} (add mul : A -> A -> A) (zero : A).
  Notation sum := (fold_right add zero).
  Notation dot := (inner add mul zero).
  Notation val := (val zero).

  Lemma dot_labs (ls : list (lab pystr)) len x y ix : NoDup ls -> wf x -> wf y -> shp x = map len ls -> shp y = map len ls ->
    dot x y = sum (map (fun v => mul (val (get x (map (asg ix ls v) ls))) (val (get y (map (asg ix ls v) ls)))) (indices (map len ls))).
  Proof.
    intros Hn Wx Wy Sx Sy. unfold inner. f_equal.
    assert (E : forall l m : list A, map Some l = map Some m -> l = m).
    { induction l as [|a l IH]; intros [|b m] H; cbn in H; try discriminate; auto. inversion H; subst. f_equal; auto. }
    apply E. rewrite <- dat_map_get by (apply t_zip_wf; auto; congruence). rewrite map_map. change (shp (t_zip mul x y)) with (shp x). rewrite Sx.
    apply map_ext_in. intros v Hv. assert (Lv := indices_nil_or _ _ _ Hv). apply indices_In in Hv. rewrite (assign_map _ slab_eq) by auto. rewrite t_zip_get by (auto; congruence).
    destruct (get_wf x v Wx) as [a Ha]; [rewrite Sx; auto|]. destruct (get_wf y v Wy) as [b Hb]; [rewrite Sy; auto|]. rewrite Ha, Hb. reflexivity.
  Qed.
End Dot.

Section Core.
  Context {A : Type} (add mul : A -> A -> A) (zero one : A) (Hsp : sums_and_products add mul zero).
  Hypothesis mul_comm : forall a b, mul a b = mul b a.
  Hypothesis mul_assoc : forall a b c, mul a (mul b c) = mul (mul a b) c.
  Hypothesis mul_one : forall a, mul one a = a.
  Notation sum := (fold_right add zero).
  Notation dot := (inner add mul zero).
  Notation val := (val zero).
  Notation prod := (product_at mul zero one).

  (** sums over all labels of a call, split into the ones of a tensor and the others *)
  Lemma dot_sum (ls ms : list (lab pystr)) len x y (f : (lab pystr -> nat) -> A) : NoDup (ls ++ ms) -> wf x -> wf y -> shp x = map len ls -> shp y = map len ls ->
    (forall i j, (forall a, i a = j a) -> f i = f j) ->
    (forall ix, within len ix ls -> get y (map ix ls) = Some (sum (map (fun v => f (asg ix ms v)) (indices (map len ms))))) ->
    dot x y = sum (map (fun v => let ix := asg (fun _ => 0) (ls ++ ms) v in mul (val (get x (map ix ls))) (f ix)) (indices (map len (ls ++ ms)))).
  Proof.
    intros Hn Wx Wy Sx Sy Hf Hg. pose proof (proj1 (NoDup_app_iff _ _) Hn) as (Nl & Nm & Nd). rewrite (dot_labs add mul zero ls len x y (fun _ => 0)) by auto.
    rewrite map_app, indices_app, flat_map_concat_map, concat_map, map_map, <- flat_map_concat_map, (sum_flat_map add mul zero Hsp). f_equal.
    apply map_ext_in. intros i Hi. assert (Li := indices_nil_or _ _ _ Hi). apply indices_In in Hi.
    rewrite Hg by (apply (within_assign (lab_eqb str_eqb) slab_eq); auto). cbn [AdjointFacts.val]. rewrite <- (mul_sum add mul zero Hsp). f_equal. rewrite map_map. apply map_ext_in. intros j Hj.
    assert (E : forall a, asg (fun _ => 0) (ls ++ ms) (i ++ j) a = asg (asg (fun _ => 0) ls i) ms j a).
    { intros a. apply (assign_app (lab_eqb str_eqb) slab_eq); auto. }
    cbn zeta. f_equal; [|apply Hf; intros a; symmetry; apply E]. f_equal. f_equal. apply map_ext_in. intros a Ha. rewrite E. symmetry.
    apply (assign_out (lab_eqb str_eqb) slab_eq). auto.
  Qed.

  (** the product without one operand *)
  Definition rest (ix : lab pystr -> nat) Ps us Ss vs := mul (prod ix Ps us) (prod ix Ss vs).
  Lemma prod_rest ix Ps us t (x : tensor A) Ss vs : length Ps = length us -> prod ix (Ps ++ t :: Ss) (us ++ x :: vs) = mul (element_at zero ix t x) (rest ix Ps us Ss vs).
  Proof.
    intros E. unfold rest, product_at. rewrite map2_app by auto. cbn [map2]. rewrite (fold_mul_app mul one mul_assoc mul_one). cbn [fold_right].
    rewrite !mul_assoc. f_equal. apply mul_comm.
  Qed.
  (** an operand that is not broadcast *)
  Lemma element_full (ix : lab pystr -> nat) len ls t (x : tensor A) : operand_labs t x = ls -> shp x = map len ls -> within len ix ls -> element_at zero ix t x = val (get x (map ix ls)).
  Proof.
    intros E S W. unfold element_at. rewrite E, S.
    replace (map2 (fun l d => if d =? 1 then 0 else ix l) ls (map len ls)) with (map ix ls); [reflexivity|].
    clear -W. induction ls as [|l ls IH]; [reflexivity|]. cbn [map map2]. f_equal; [|apply IH; intros a Ha; apply W; right; auto].
    specialize (W l (or_introl eq_refl)). destruct (Nat.eqb_spec (len l) 1); lia.
  Qed.

  Lemma einsum_adjoint len Ps us Ss vs t R lt lr mt mr (x y z w : tensor A) : length Ps = length us ->
    operand_labs t x = lt -> operand_labs R z = lr -> NoDup (lt ++ mt) -> NoDup (lr ++ mr) -> (forall l, In l (lt ++ mt) <-> In l (lr ++ mr)) ->
    wf x -> wf y -> wf z -> wf w -> shp x = map len lt -> shp w = map len lt -> shp y = map len lr -> shp z = map len lr ->
    (forall ix, within len ix lr -> get y (map ix lr) = Some (sum (map (fun v => prod (asg ix mr v) (Ps ++ t :: Ss) (us ++ x :: vs)) (indices (map len mr))))) ->
    (forall ix, within len ix lt -> get w (map ix lt) = Some (sum (map (fun v => prod (asg ix mt v) (Ps ++ R :: Ss) (us ++ z :: vs)) (indices (map len mt))))) ->
    dot y z = dot x w.
  Proof.
    intros Lu Et Er Nt Nr Hall Wx Wy Wz Ww Sx Sw Sy Sz Gy Gw.
    assert (C : dot y z = dot z y).
    { unfold inner. f_equal. unfold t_zip. cbn [dat]. clear -mul_comm. generalize (dat y) (dat z). induction l as [|a l IH]; intros [|b m]; cbn; try reflexivity. rewrite mul_comm, IH. reflexivity. }
    rewrite C.
    assert (X : forall i j Ts xs, (forall a : lab pystr, i a = j a) -> prod i Ts xs = prod j Ts xs) by (intros i j Ts xs E; apply product_at_ext; auto).
    rewrite (dot_sum lr mr len z y (fun i => prod i (Ps ++ t :: Ss) (us ++ x :: vs))), (dot_sum lt mt len x w (fun i => prod i (Ps ++ R :: Ss) (us ++ z :: vs))) by auto.
    etransitivity.
    { eapply sum_permutation; [exact (sp_comm _ _ _ Hsp)|exact (sp_assoc _ _ _ Hsp)|].
      refine (reorder_gen (lab_eqb str_eqb) slab_eq (fun ix => mul (val (get z (map ix lr))) (prod ix (Ps ++ t :: Ss) (us ++ x :: vs))) len (fun _ => 0) (lr ++ mr) (lt ++ mt) Nr Nt _ _).
      - intros a. symmetry. apply Hall.
      - intros i j E. rewrite (map_ext_in i j) by auto. rewrite (X i j) by auto. reflexivity. }
    f_equal. apply map_ext_in. intros v Hv. apply indices_In in Hv. cbn zeta. set (ix := asg (fun _ => 0) (lt ++ mt) v).
    pose proof (within_assign (lab_eqb str_eqb) slab_eq len (fun _ => 0) _ v Nt Hv) as W. fold ix in W.
    assert (Wt : within len ix lt) by (intros l Hl; apply W, in_or_app; auto).
    assert (Wr : within len ix lr) by (intros l Hl; apply W, Hall, in_or_app; auto).
    rewrite !prod_rest by auto. rewrite (element_full ix len lt t x), (element_full ix len lr R z) by auto. rewrite !mul_assoc. f_equal. apply mul_comm.
  Qed.
End Core.

Section Calls.
  Context (U : unicode) (HU : unicode_ok U) {A : Type} (add mul : A -> A -> A) (zero one : A) (lib : pystr -> list (tensor A) -> result (tensor A)).
  Context (Hsp : sums_and_products add mul zero).
  Hypothesis mul_comm : forall a b, mul a b = mul b a.
  Hypothesis mul_assoc : forall a b c, mul a (mul b c) = mul (mul a b) c.
  Hypothesis mul_one : forall a, mul one a = a.
  Hypothesis Hlib : einsum_contract add mul zero one lib.
  Let add_comm := sp_comm _ _ _ Hsp.
  Let add_assoc := sp_assoc _ _ _ Hsp.
  Notation dot := (inner add mul zero).

  Lemma none_dots (L : list entry) : In None (to_term L) <-> In EDots L.
  Proof. unfold to_term. rewrite in_map_iff. split; [intros [[s|] [H1 H2]]; [discriminate|auto]|intros H; exists EDots; auto]. Qed.
  Lemma none_dec (t : sterm) : In None t \/ ~ In None t.
  Proof. destruct (in_dec (fun a b : option pystr => ltac:(decide equality; apply (list_eq_dec N.eq_dec))) None t); auto. Qed.

  Section Swap.
    Context (len : lab pystr -> nat) (Ps Ss : list sterm) (t R : sterm) (us vs : list (tensor A)) (x z : tensor A).
    Let Ts := Ps ++ t :: Ss.
    Let xs := us ++ x :: vs.
    Let mx := list_max (map2 spare Ts xs).
    Hypothesis Hu : length Ps = length us.
    Hypothesis G : good_call len Ts R xs.
    Hypothesis Nt : NoDup (term_names t).
    Hypothesis Hd : In None R -> In None t.
    Hypothesis Sx : shp x = map len (out_labs Ts xs t).
    Hypothesis Wz : wf z.
    Hypothesis Sz : shp z = map len (out_labs Ts xs R).

    Lemma sw_fits : Forall2 (operand_fits len) Ps us /\ operand_fits len t x /\ Forall2 (operand_fits len) Ss vs.
    Proof. destruct G as [F _]. apply Forall2_split in F as [F1 F]; [|auto]. inversion F; subst. auto. Qed.
    Lemma sw_mx (s : sterm) (u : tensor A) : term_dots s <= 1 -> (In None (concat Ts) -> In None s) -> shp u = map len (out_labs Ts xs s) -> spare s u = mx.
    Proof.
      intros D N E. unfold spare. rewrite E, map_length. unfold out_labs. fold mx. rewrite labs_length. destruct (none_dec s) as [Y|Y].
      - pose proof (some_dots s Y). replace (term_dots s) with 1 by lia. lia.
      - rewrite (no_dots s Y). enough (mx = 0) by lia. destruct mx as [|k] eqn:X; [reflexivity|]. exfalso.
        destruct (max_spare Ts xs k) as (s' & u' & H1 & H2); [unfold mx in X; lia|]. destruct G as [F _]. pose proof (Forall2_combine _ _ _ _ _ F H1) as Hf.
        rewrite (no_spare _ _ _ Hf) in H2; [lia|]. intros C. apply Y, N. apply in_concat. exists s'. split; auto. eapply in_combine_l; exact H1.
    Qed.
    Lemma sw_R : spare R z = mx.
    Proof. destruct G as (_ & _ & _ & D & N & _). apply sw_mx; auto. Qed.
    Lemma sw_t : spare t x = mx.
    Proof. destruct G as (_ & _ & _ & _ & N & _). destruct sw_fits as (_ & (_ & D & _) & _). apply sw_mx; auto. Qed.
    Lemma sw_max : list_max (map2 spare (Ps ++ R :: Ss) (us ++ z :: vs)) = mx.
    Proof.
      unfold mx, Ts, xs. rewrite !map2_app by auto. cbn [map2]. rewrite !list_max_app'. change (list_max (?a :: ?b)) with (Nat.max a (list_max b)).
      rewrite sw_R, sw_t. reflexivity.
    Qed.
    Lemma sw_labs_R : operand_labs R z = out_labs Ts xs R.
    Proof. unfold operand_labs, out_labs. rewrite sw_R. reflexivity. Qed.
    Lemma sw_labs_t : operand_labs t x = out_labs Ts xs t.
    Proof. unfold operand_labs, out_labs. rewrite sw_t. reflexivity. Qed.
    Lemma sw_out s : out_labs (Ps ++ R :: Ss) (us ++ z :: vs) s = out_labs Ts xs s.
    Proof. unfold out_labs. rewrite sw_max. reflexivity. Qed.

    Lemma sw_good M : NoDup (term_names M) -> term_dots M <= 1 -> (In None R -> In None M) ->
      incl (term_names M) (flat_map term_names (Ps ++ Ss) ++ term_names R) -> good_call len (Ps ++ R :: Ss) M (us ++ z :: vs).
    Proof.
      intros NM DM HM IM. destruct sw_fits as (F1 & F2 & F3). pose proof G as (_ & HR & HI & HD & HN & HA).
      split; [|split; [auto|split; [|split; [auto|split]]]].
      - apply Forall2_app; auto. constructor; auto. split; [auto|]. split; [auto|]. rewrite sw_labs_R, Sz. generalize (out_labs Ts xs R).
        intros l. induction l as [|a l IH]; constructor; auto. destruct a; cbn; auto.
      - intros a Ha. apply IM in Ha. rewrite !flat_map_app in *. cbn [flat_map]. rewrite !in_app_iff in *. tauto.
      - intros X. apply HM. rewrite concat_app in X. cbn [concat] in X. rewrite !in_app_iff in X. destruct X as [X|[X|X]]; auto; apply HN; unfold Ts;
          rewrite concat_app; cbn [concat]; rewrite !in_app_iff; auto.
      - intros k Hk. rewrite sw_max in Hk. exists R, z. split; [rewrite combine_app_same by auto; apply in_or_app; right; left; reflexivity|].
        rewrite sw_labs_R, Sz.
        assert (Hl : In (LDot k) (out_labs Ts xs R)).
        { apply labs_dot_iff. split; auto. destruct (HA k Hk) as (s & u & H1 & H2). apply HN. apply in_concat. exists s. split; [eapply in_combine_l; exact H1|].
          apply in_combine_l in H2. apply labs_dot_iff in H2 as [_ H2]. exact H2. }
        clear -Hl. induction (out_labs Ts xs R) as [|l ls IH]; [destruct Hl|]. cbn [map combine]. destruct Hl as [->|Hl]; [left; auto|right; auto].
    Qed.

    (** all labels, on both sides *)
    Lemma sw_labs l : In l (all_labs (Ps ++ R :: Ss) (us ++ z :: vs)) <-> In l (all_labs Ps us) \/ In l (out_labs Ts xs R) \/ In l (all_labs Ss vs).
    Proof. rewrite all_labs_app by auto. unfold all_labs at 2. cbn [map2 concat]. rewrite sw_labs_R, !in_app_iff. reflexivity. Qed.
    Lemma sw_labs' l : In l (all_labs Ts xs) <-> In l (all_labs Ps us) \/ In l (out_labs Ts xs t) \/ In l (all_labs Ss vs).
    Proof. unfold Ts, xs. rewrite all_labs_app by auto. unfold all_labs at 2. cbn [map2 concat]. rewrite sw_labs_t, !in_app_iff. reflexivity. Qed.
    Lemma sw_sub l : In l (out_labs Ts xs R) -> In l (all_labs Ts xs).
    Proof.
      pose proof G as (F & HR & HI & HD & HN & HA). intros H. destruct l as [a|k].
      - apply (all_name Ts xs a); [eapply Forall2_length; exact F|]. apply term_labs_name in H. auto.
      - apply labs_dot_iff in H as [H _]. destruct (HA k H) as (s & u & H1 & H2). apply in_all_iff. exists s, u. split; auto. eapply in_combine_l; exact H2.
    Qed.

    (** every label of the second call but not of [t] is summed over *)
    Lemma sw_adjoint ms mt y w : summed Ts R xs ms -> is_einsum str_eqb add mul zero one len Ts R xs ms y ->
      NoDup mt -> (forall l, In l mt <-> In l (all_labs (Ps ++ R :: Ss) (us ++ z :: vs)) /\ ~ In l (out_labs Ts xs t)) ->
      wf w -> shp w = map len (out_labs Ts xs t) ->
      (forall ix, within len ix (out_labs Ts xs t) ->
         get w (map ix (out_labs Ts xs t)) = Some (fold_right add zero (map (fun v => product_at mul zero one (asg ix mt v) (Ps ++ R :: Ss) (us ++ z :: vs)) (indices (map len mt))))) ->
      dot y z = dot x w.
    Proof.
      intros [Nm Im] (Wy & Sy & Gy) Nmt Imt Ww Sw Gw. destruct sw_fits as (_ & (Wx & Dt & _) & _). pose proof G as (_ & HR & _ & HD & _).
      refine (einsum_adjoint add mul zero one Hsp mul_comm mul_assoc mul_one len Ps us Ss vs t R (out_labs Ts xs t) (out_labs Ts xs R) mt ms x y z w
        Hu sw_labs_t sw_labs_R _ _ _ Wx Wy Wz Ww Sx Sw Sy Sz Gy Gw).
      - apply NoDup_app_iff. split; [apply term_labs_NoDup; auto|]. split; [auto|]. intros l H1 H2. apply Imt in H2. tauto.
      - apply NoDup_app_iff. split; [apply term_labs_NoDup; auto|]. split; [auto|]. intros l H1 H2. apply Im in H2. tauto.
      - intros l. rewrite !in_app_iff, Imt, Im, sw_labs, sw_labs'. pose proof (sw_sub l) as Hs. rewrite sw_labs' in Hs.
        destruct (in_dec slab_dec l (out_labs Ts xs t)), (in_dec slab_dec l (out_labs Ts xs R)); tauto.
    Qed.
  End Swap.

  Lemma einsum_gradient p p' Lp L Ls R us x vs len y z :
    einsum_reads U p (Lp ++ L :: Ls) R -> einsum_reads U p' (Lp ++ R :: Ls) L ->
    length Lp = length us -> length (distinct (all_names (Lp ++ L :: Ls))) <= 52 ->
    good_call len (map to_term (Lp ++ L :: Ls)) (to_term R) (us ++ x :: vs) ->
    NoDup (entry_names L) -> incl (entry_names L) (all_names (Lp ++ Ls) ++ entry_names R) -> (In EDots R -> In EDots L) ->
    shp x = map len (out_labs (map to_term (Lp ++ L :: Ls)) (us ++ x :: vs) (to_term L)) ->
    einsum_with U lib (map inl (us ++ x :: vs) ++ [inr p]) = Ok y -> wf z -> shp z = shp y ->
    exists w, einsum_with U lib (map inl (us ++ z :: vs) ++ [inr p']) = Ok w /\ wf w /\ shp w = shp x /\ dot y z = dot x w.
  Proof.
    intros R1 R2 Lu H52 G NL IL DL Sx Ey Wz Sz.
    destruct (einsum_formula U HU add mul zero one add_comm add_assoc lib p _ R _ _ Hlib R1 H52 G) as [y' [Ey' Fy]]. rewrite Ey in Ey'. injection Ey' as <-.
    destruct (summed_exists (map to_term (Lp ++ L :: Ls)) (to_term R) (us ++ x :: vs)) as [ms Hms]. specialize (Fy ms Hms).
    assert (Sz' : shp z = map len (out_labs (map to_term (Lp ++ L :: Ls)) (us ++ x :: vs) (to_term R))) by (rewrite Sz; apply Fy).
    assert (Lu' : length (map to_term Lp) = length us) by (rewrite map_length; auto).
    rewrite !map_app in *. cbn [map] in *.
    assert (NL' : NoDup (term_names (to_term L))) by (rewrite to_term_names; auto).
    assert (DL' : In None (to_term R) -> In None (to_term L)) by (rewrite !none_dots; auto).
    assert (Dt : term_dots (to_term L) <= 1) by (destruct (sw_fits len _ _ _ _ _ _ _ Lu' G) as (_ & (_ & D & _) & _); exact D).
    assert (G' : good_call len (map to_term Lp ++ to_term R :: map to_term Ls) (to_term L) (us ++ z :: vs)).
    { apply (sw_good len _ _ _ _ us vs x z Lu' G DL' Sx Wz Sz' (to_term L)); auto. rewrite <- map_app, to_term_names, to_terms_names, to_term_names. exact IL. }
    assert (N2 : length (distinct (all_names (Lp ++ R :: Ls))) <= 52).
    { eapply fewer_names; [|exact H52]. destruct G as (_ & _ & HI & _). change (to_term L :: map to_term Ls) with (map to_term (L :: Ls)) in HI.
      rewrite <- map_app, to_terms_names, to_term_names in HI. fold (all_names (Lp ++ L :: Ls)) in HI. intros s Hs. unfold all_names in Hs. rewrite flat_map_app in Hs. cbn [flat_map] in Hs. rewrite !in_app_iff in Hs.
      destruct Hs as [Hs|[Hs|Hs]]; [|auto|]; unfold all_names; rewrite flat_map_app; cbn [flat_map]; rewrite !in_app_iff; auto. }
    pose proof G' as G2. change (to_term R :: map to_term Ls) with (map to_term (R :: Ls)) in G2. rewrite <- map_app in G2.
    destruct (einsum_formula U HU add mul zero one add_comm add_assoc lib p' _ L _ _ Hlib R2 N2 G2) as [w [Ew Fw]]. exists w. split; [rewrite map_app in Ew; exact Ew|].
    destruct (summed_exists (map to_term (Lp ++ R :: Ls)) (to_term L) (us ++ z :: vs)) as [mt Hmt]. specialize (Fw mt Hmt).
    rewrite map_app in *. cbn [map] in *. destruct Fw as (Ww & Sw & Gw). destruct Hmt as [Nmt Imt].
    rewrite (sw_out len _ _ _ _ us vs x z Lu' G DL' Sx Sz') in Sw, Gw.
    assert (Imt' : forall l, In l mt <-> In l (all_labs (map to_term Lp ++ to_term R :: map to_term Ls) (us ++ z :: vs)) /\
        ~ In l (out_labs (map to_term Lp ++ to_term L :: map to_term Ls) (us ++ x :: vs) (to_term L))).
    { intros l. rewrite Imt, (sw_out len _ _ _ _ us vs x z Lu' G DL' Sx Sz'). reflexivity. }
    split; [exact Ww|]. split; [congruence|]. exact (sw_adjoint len _ _ _ _ us vs x z Lu' G NL' DL' Sx Wz Sz' ms mt y w Hms Fy Nmt Imt' Ww Sw Gw).
  Qed.
End Calls.
