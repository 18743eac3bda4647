(** * pack and unpack: no element is lost; they are adjoint *)
From Coq Require Import Permutation.
From Verif Require Import Py Tensor Parsing Recipe Ops Backends ListFacts TensorFacts SpecGrammar SpecPattern SpecElements SpecAdjoint Api Packing SpecPacking PackFacts PackFacts2 PackFacts3 PackFacts4 PackFacts5
  ReduceFacts EinsumFacts3 EinsumLaws2 ElementFacts AdjointFacts.

Section Elements.
  Context {A : Type}.
  Implicit Types (x t : tensor A) (b a m : list nat) (ms : list (list nat)).

  Lemma flat_map_both {X Y} (f g : X -> list Y) l : Permutation (flat_map (fun i => f i ++ g i) l) (flat_map f l ++ flat_map g l).
  Proof.
    induction l as [|i l IH]; cbn [flat_map]; [constructor|]. rewrite <- !app_assoc. apply Permutation_app_head.
    etransitivity; [apply Permutation_app_head; exact IH|]. rewrite !app_assoc. apply Permutation_app_tail, Permutation_app_comm.
  Qed.
  Lemma flat_map_map' {X Y Z} (f : X -> Y) (g : Y -> list Z) l : flat_map g (map f l) = flat_map (fun i => g (f i)) l.
  Proof. induction l as [|i l IH]; [reflexivity|]. cbn. rewrite IH. reflexivity. Qed.
  Lemma map_flat_map {X Y Z} (f : Y -> Z) (g : X -> list Y) l : map f (flat_map g l) = flat_map (fun i => map f (g i)) l.
  Proof. induction l as [|i l IH]; [reflexivity|]. cbn. rewrite map_app, IH. reflexivity. Qed.

  (** the elements of [x] at the positions [off], ... , [off + n - 1] of the middle axis *)
  Definition stretch b a x off n : list (option A) :=
    flat_map (fun ib => flat_map (fun i => map (fun ia => get x (ib ++ [i] ++ ia)) (indices a)) (seq off n)) (indices b).

  Lemma stretch_app b a x off n k : Permutation (stretch b a x off (n + k)) (stretch b a x off n ++ stretch b a x (off + n) k).
  Proof.
    unfold stretch. erewrite flat_map_ext; [apply flat_map_both|]. intros ib. rewrite seq_app. apply flat_map_app.
  Qed.
  Lemma stretch_piece b a x off m t : piece_of b a x off m t -> stretch b a x off (prodn m) = map Some (dat t).
  Proof.
    intros (Wt & St & Gt). rewrite <- (dat_map_get t Wt), St, !indices_app, map_flat_map. unfold stretch. rewrite !flat_map_concat_map. f_equal.
    apply map_ext_in. intros ib Hb. apply indices_In in Hb.
    replace (seq off (prodn m)) with (map (fun im => off + ravel m im) (indices m)).
    2:{ rewrite <- (map_map (ravel m) (fun k => off + k)), indices_ravel. clear. generalize (prodn m) as n. intros n. revert off. induction n as [|n IH]; intros off; [reflexivity|].
        rewrite !seq_S, map_app, IH. reflexivity. }
    rewrite (map_map (app ib) (get t)).
    rewrite flat_map_map', <- flat_map_concat_map, map_flat_map, !flat_map_concat_map. f_equal. apply map_ext_in. intros im Hm. apply indices_In in Hm.
    rewrite map_map. apply map_ext_in. intros ia Ha. apply indices_In in Ha. symmetry. apply Gt; auto.
  Qed.
  Lemma stretch_all b a x n : wf x -> shp x = b ++ [n] ++ a -> stretch b a x 0 n = map Some (dat x).
  Proof.
    intros Wx Sx. rewrite <- (dat_map_get x Wx), Sx, !indices_app, map_flat_map. unfold stretch. rewrite !flat_map_concat_map. f_equal.
    apply map_ext_in. intros ib _. cbn [indices]. rewrite map_flat_map, !flat_map_concat_map.
    generalize (seq 0 n) as l. induction l as [|i l IH]; [reflexivity|]. cbn [map concat app] in IH |- *.
    rewrite !map_app, IH, !map_map. reflexivity.
  Qed.

  Lemma consists_elements b a x ms ts : consists_of b a x ms ts -> Permutation (dat x) (concat (map dat ts)).
  Proof.
    intros (Wx & Sx & L & P).
    assert (K : forall off, (forall k m t, nth_error ms k = Some m -> nth_error ts k = Some t -> piece_of b a x (off + offset ms k) m t) ->
      Permutation (stretch b a x off (list_sum (map prodn ms))) (map Some (concat (map dat ts)))).
    { clear P Sx. revert ts L. induction ms as [|m ms IH]; intros [|t ts] L off P; try discriminate.
      - cbn. unfold stretch. cbn [seq flat_map]. rewrite flat_map_concat_map. clear. induction (indices b); cbn; auto.
      - cbn [map list_sum fold_right]. change (fold_right Nat.add 0 (map prodn ms)) with (list_sum (map prodn ms)).
        etransitivity; [apply stretch_app|]. cbn [concat]. rewrite map_app. apply Permutation_app.
        + rewrite (stretch_piece b a x off m t); [reflexivity|]. specialize (P 0 m t eq_refl eq_refl). cbn in P. rewrite Nat.add_0_r in P. exact P.
        + apply IH; [cbn in L; lia|]. intros k m' t' H1 H2. specialize (P (S k) m' t' H1 H2). unfold offset in *. cbn [firstn map list_sum fold_right] in P.
          change (fold_right Nat.add 0 ?l) with (list_sum l) in P. rewrite Nat.add_assoc in P. exact P. }
    specialize (K 0 P). rewrite (stretch_all b a x _ Wx Sx) in K.
    assert (E : forall l : list A, flat_map (fun o => match o with Some v => [v] | None => [] end) (map Some l) = l) by (induction l as [|v l IH]; cbn; [|rewrite IH]; reflexivity).
    rewrite <- (E (dat x)), <- (E (concat (map dat ts))). apply Permutation_flat_map, K.
  Qed.

  Lemma pack_elements (r : runtime A) ts p x ps : runtime_ok r -> Forall wf ts -> pack r ts p = Ok (x, ps) -> Permutation (dat x) (concat (map dat ts)).
  Proof.
    intros Hr Hw H. destruct (pack_inv_pattern r Hr ts p x ps H) as [before [after Hp]].
    destruct (proj1 (pack_iff r ts p before after x ps Hr Hp Hw) H) as [b [a [ms [_ [_ [_ [_ [_ HC]]]]]]]]. eapply consists_elements; eauto.
  Qed.
End Elements.

Lemma nth_map2 {X Y Z} (f : X -> Y -> Z) l : forall m k c, nth_error (map2 f l m) k = Some c -> exists a b, nth_error l k = Some a /\ nth_error m k = Some b /\ c = f a b.
Proof.
  induction l as [|a l IH]; intros m k c H; [destruct k; discriminate|]. destruct m as [|b m]; [destruct k; discriminate|].
  destruct k as [|k]; [injection H as <-; exists a, b; auto|]. exact (IH m k c H).
Qed.

Section Adjoint.
  Context {A : Type} (add mul : A -> A -> A) (zero : A) (Hsp : sums_and_products add mul zero).
  Notation sum := (fold_right add zero).
  Notation dot := (inner add mul zero).
  Implicit Types (x y z t : tensor A) (ts xs gs : list (tensor A)).

  Lemma consists_zip b a x z ms xs gs : consists_of b a x ms xs -> consists_of b a z ms gs -> consists_of b a (t_zip mul x z) ms (map2 (t_zip mul) xs gs).
  Proof.
    intros (Wx & Sx & Lx & Px) (Wz & Sz & Lz & Pz). split; [apply t_zip_wf; auto; congruence|]. split; [exact Sx|]. split.
    - rewrite map2_length. lia.
    - intros k m t Hm Ht. apply nth_map2 in Ht as (t1 & t2 & H1 & H2 & ->). destruct (Px k m t1 Hm H1) as (W1 & S1 & G1). destruct (Pz k m t2 Hm H2) as (W2 & S2 & G2).
      split; [apply t_zip_wf; auto; congruence|]. split; [exact S1|]. intros ib im ia Hb Hi Ha. rewrite !t_zip_get by (auto; congruence). rewrite G1, G2 by auto. reflexivity.
  Qed.
  Lemma sum_concat (l : list (list A)) : sum (concat l) = sum (map sum l).
  Proof. induction l as [|v l IH]; [reflexivity|]. cbn. rewrite (sum_app add mul zero Hsp), IH. reflexivity. Qed.
  Lemma consists_dot b a x z ms xs gs : consists_of b a x ms xs -> consists_of b a z ms gs -> dot x z = sum (map2 dot xs gs).
  Proof.
    intros H1 H2. pose proof (consists_elements _ _ _ _ _ (consists_zip _ _ _ _ _ _ _ H1 H2)) as P. unfold inner at 1.
    rewrite (sum_permutation add zero _ _ (sp_comm _ _ _ Hsp) (sp_assoc _ _ _ Hsp) P), sum_concat, map_map. f_equal.
    clear. revert gs. induction xs as [|x xs IH]; intros [|g gs]; try reflexivity. cbn. rewrite IH. reflexivity.
  Qed.

  Context (r : runtime A) (Hr : runtime_ok r).
  Definition like (x g : tensor A) : Prop := wf g /\ shp g = shp x.

  Lemma alike_any x z : wf x -> wf z -> shp x = shp z -> alike (fun _ _ : A => True) x z.
  Proof.
    unfold wf. intros Wx Wz S. split; auto. rewrite S in Wx. rewrite <- Wz in Wx. revert Wx. generalize (dat x) (dat z). induction l as [|u l IH]; intros [|w m] H; try discriminate; constructor; auto.
  Qed.
  Lemma same_runtime : runtimes_alike r r.
  Proof. constructor; reflexivity. Qed.

  Lemma pack_gradient xs p y ps z : Forall wf xs -> pack r xs p = Ok (y, ps) -> wf z -> shp z = shp y ->
    exists gs, unpack r z ps p = Ok gs /\ Forall2 like xs gs /\ dot y z = sum (map2 dot xs gs).
  Proof.
    intros Hw H Wz Sz. destruct (pack_inv_pattern r Hr xs p y ps H) as [before [after Hp]].
    destruct (proj1 (pack_iff r xs p before after y ps Hr Hp Hw) H) as [b [a [ms [Lb [La [Hn [P [-> HC]]]]]]]]. pose proof HC as (Wy & Sy & Lx & _).
    pose proof (pack_unpack r Hr xs p y _ Hw H) as E.
    pose proof (unpack_alike (fun _ _ : A => True) r r same_runtime y z (map zs ms) p (alike_any y z Wy Wz (eq_sym Sz))) as B. rewrite E in B.
    destruct (unpack r z (map zs ms) p) as [gs|e] eqn:Eg; [|contradiction]. cbn in B. exists gs. split; [reflexivity|].
    assert (Hps : map zs ms <> []) by (destruct ms; [destruct xs; [congruence|discriminate]|discriminate]).
    assert (Ht : forall q, In q (map zs ms) -> tame (rt_lib r) q).
    { intros q Hq. right. intros d Hd. apply in_map_iff in Hq as [m [<- _]]. apply in_map_iff in Hd as [n [<- _]]. lia. }
    assert (Hk : known_total (map zs ms) <= list_sum (map prodn ms)).
    { apply reads_known. clear. induction ms as [|m ms IH]; constructor; auto. eapply fills_Forall2, fills_zs. }
    destruct (unpack_sound r Hr z (map zs ms) p before after b (list_sum (map prodn ms)) a gs Hp ltac:(congruence) Lb La Wz P Hps Ht Hk Eg) as [ms' [HF HC']].
    assert (ms' = ms) as ->.
    { clear -HF. apply fills_reads in HF. revert ms' HF. induction ms as [|m ms IH]; intros ms' HF; inversion HF as [|? m' ? ms0 H1 H2]; subst; [reflexivity|]. f_equal; [|auto].
      clear -H1. unfold reads_as, zs in H1. revert m' H1. induction m as [|d m IH]; intros m' H1; inversion H1 as [|? d' ? m0 D M]; subst; [reflexivity|]. f_equal; [lia|auto]. }
    split; [|eapply consists_dot; eauto]. destruct (Forall2_shp_consists _ _ _ _ _ HC') as [_ Wg]. clear -B Wg.
    induction B as [|t g xs gs [S _] _ IH]; constructor; inversion Wg; subst; auto. split; auto.
  Qed.

  Lemma unpack_gradient x ps p before after b n a xs gs :
    pack_pattern (rt_unicode r) p before after ->
    shp x = b ++ [n] ++ a -> length b = length before -> length a = length after ->
    wf x -> prodn (b ++ a) <> 0 -> ps <> [] -> (forall p, In p ps -> tame (rt_lib r) p) -> known_total ps <= n ->
    unpack r x ps p = Ok xs -> Forall2 like xs gs ->
    exists g qs, pack r gs p = Ok (g, qs) /\ like x g /\ sum (map2 dot xs gs) = dot x g.
  Proof.
    intros Hp Hs Lb La Hw P Hn HT K H HL.
    destruct (unpack_sound r Hr x ps p before after b n a xs Hp Hs Lb La Hw P Hn HT K H) as [ms [HF HC]]. destruct (Forall2_shp_consists _ _ _ _ _ HC) as [F2 _].
    assert (F : Forall2 (fun t m => shp t = b ++ m ++ a) gs ms).
    { clear -F2 HL. revert ms F2. induction HL as [|t g xs gs [_ S] _ IH]; intros ms F2; inversion F2; subst; constructor; auto. congruence. }
    assert (Wg : Forall wf gs) by (clear -HL; induction HL as [|t g xs gs [W _] _ IH]; constructor; auto).
    assert (Ng : gs <> []).
    { intros ->. inversion HL; subst. destruct HC as (_ & _ & L & _). apply Forall2_length in HF. destruct ps; [congruence|]. cbn in *. lia. }
    destruct (pack_layout r gs p before after b a ms Hr Hp Lb La Wg F Ng P) as [g [Eg HG]]. exists g. eexists. split; [exact Eg|]. split.
    - destruct HC as (_ & S & _). destruct HG as (W & S' & _). split; [auto|congruence].
    - symmetry. eapply consists_dot; eauto.
  Qed.
End Adjoint.
