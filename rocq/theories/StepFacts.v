(** * The five steps of a transformation on tensors with labelled axes *)
From Verif Require Import Py Tensor ListFacts TensorFacts SpecSem Parsing Recipe Ops Backends.

Section Steps.
  Context {X A : Type} (eqb : X -> X -> bool) (eqb_spec : forall a b, eqb a b = true <-> a = b).
  Implicit Types (t : tensor A) (len ix : X -> nat) (ns : list X).

  (** [t]'s dimensions are the axes [ns], and its elements are given by [f] *)
  Definition repr t ns len (f : (X -> nat) -> result A) : Prop :=
    wf t /\ shp t = map len ns /\ forall ix, within len ix ns -> getr t (map ix ns) = f ix.

  (** the same for groups of axes *)
  Definition grepr t gs len (f : (X -> nat) -> result A) : Prop :=
    wf t /\ shp t = gshape len gs /\
    forall ix, within len ix (concat gs) -> getr t (gindex len ix gs) = f ix.

  Lemma within_app len ix l1 l2 : within len ix (l1 ++ l2) <-> within len ix l1 /\ within len ix l2.
  Proof.
    unfold within; split; [intros H; split; intros; apply H; apply in_or_app; auto|].
    intros [H1 H2] a Ha. apply in_app_or in Ha as [Ha|Ha]; auto.
  Qed.

  Lemma inb_within len ix l : inb (map len l) (map ix l) = true <-> within len ix l.
  Proof. apply inb_map. Qed.

  Lemma within_incl len ix l1 l2 : incl l1 l2 -> within len ix l2 -> within len ix l1.
  Proof. unfold within, incl; auto. Qed.

  (** ** assign *)
  Lemma assign_out ix axs vals a : ~ In a axs -> assign eqb ix axs vals a = ix a.
  Proof. intros H. unfold assign. apply (index_of_None eqb eqb_spec) in H. rewrite H; auto. Qed.

  Lemma assign_map ix axs vals :
    NoDup axs -> length vals = length axs -> map (assign eqb ix axs vals) axs = vals.
  Proof.
    intros Hnd Hl. apply list_ext. intros i. destruct (nth_error axs i) as [a|] eqn:E.
    - erewrite map_nth_error by eauto. unfold assign.
      rewrite (index_of_nth eqb eqb_spec _ _ _ Hnd E). symmetry. apply nth_error_nth'.
      rewrite Hl. apply nth_error_Some. congruence.
    - transitivity (@None nat); [|symmetry]; apply nth_error_None; rewrite ?map_length; apply nth_error_None in E; lia.
  Qed.

  Lemma assign_map_out ix axs vals l :
    (forall a, In a l -> ~ In a axs) -> map (assign eqb ix axs vals) l = map ix l.
  Proof. intros H. apply map_ext_in. intros a Ha. apply assign_out; auto. Qed.

  Lemma within_assign len ix axs vals :
    NoDup axs -> inb (map len axs) vals = true -> within len (assign eqb ix axs vals) axs.
  Proof.
    intros Hnd Hi. apply inb_within. rewrite assign_map; auto.
    apply inb_length in Hi. rewrite map_length in Hi. auto.
  Qed.

  Lemma assign_ext ix ix' axs vals a :
    (~ In a axs -> ix a = ix' a) -> assign eqb ix axs vals a = assign eqb ix' axs vals a.
  Proof.
    intros H. unfold assign. destruct (index_of eqb a axs) eqn:E; auto.
    apply H. apply (index_of_None eqb eqb_spec); auto.
  Qed.

  (** ** changing the grouping keeps the flat data *)
  Lemma ravel_gindex len ix gs :
    ravel (gshape len gs) (gindex len ix gs) = ravel (map len (concat gs)) (map ix (concat gs)).
  Proof.
    unfold gshape, gindex. rewrite !concat_map, ravel_concat.
    - rewrite map_map. f_equal. rewrite map2_map, map2_same. reflexivity.
    - induction gs as [|g gs IH]; simpl; constructor; auto. rewrite !map_length; auto.
  Qed.

  Lemma prodn_gshape len gs : prodn (gshape len gs) = prodn (map len (concat gs)).
  Proof. unfold gshape. rewrite concat_map, prodn_concat, map_map. reflexivity. Qed.

  Lemma inb_gindex len ix gs : within len ix (concat gs) -> inb (gshape len gs) (gindex len ix gs) = true.
  Proof.
    unfold gshape, gindex. intros H. apply inb_map. intros g Hg. apply ravel_lt. apply inb_map.
    intros a Ha. apply H. apply in_concat. eauto.
  Qed.

  Lemma grepr_repr len gs f s d :
    grepr (mkT s d) gs len f -> repr (mkT (map len (concat gs)) d) (concat gs) len f.
  Proof.
    unfold grepr, repr, wf; simpl. intros [Hw [-> Hg]]. repeat split; auto.
    - rewrite <- prodn_gshape; auto.
    - intros ix Hi. rewrite <- Hg by auto. unfold getr, get; simpl.
      rewrite inb_gindex by auto. rewrite (proj2 (inb_map _ _ _)) by auto.
      rewrite ravel_gindex. reflexivity.
  Qed.

  Lemma repr_grepr len gs f s d :
    repr (mkT s d) (concat gs) len f -> grepr (mkT (gshape len gs) d) gs len f.
  Proof.
    unfold grepr, repr, wf; simpl. intros [Hw [-> Hg]]. repeat split; auto.
    - rewrite prodn_gshape; auto.
    - intros ix Hi. rewrite <- Hg by auto. unfold getr, get; simpl.
      rewrite inb_gindex by auto. rewrite (proj2 (inb_map _ _ _)) by auto.
      rewrite ravel_gindex. reflexivity.
  Qed.

  Lemma repr_ext t ns len f g :
    (forall ix, within len ix ns -> f ix = g ix) -> repr t ns len f -> repr t ns len g.
  Proof. intros H [Hw [Hs Hg]]. repeat split; auto. intros ix Hi. rewrite <- H by auto. auto. Qed.

  Lemma grepr_ext t gs len f g :
    (forall ix, within len ix (concat gs) -> f ix = g ix) -> grepr t gs len f -> grepr t gs len g.
  Proof. intros H [Hw [Hs Hg]]. repeat split; auto. intros ix Hi. rewrite <- H by auto. auto. Qed.

  (** singleton groups *)
  Lemma ravel1 d i : ravel [d] [i] = i.
  Proof. cbn. lia. Qed.

  Lemma gshape_single len gs : Forall (fun g => length g = 1) gs -> gshape len gs = map len (concat gs).
  Proof.
    induction 1 as [|g gs Hg _ IH]; [reflexivity|]. destruct g as [|a [|? ?]]; try discriminate.
    simpl. f_equal; [|exact IH]. unfold prodn; simpl; lia.
  Qed.

  Lemma gindex_single len ix gs : Forall (fun g => length g = 1) gs -> gindex len ix gs = map ix (concat gs).
  Proof.
    induction 1 as [|g gs Hg _ IH]; [reflexivity|]. destruct g as [|a [|? ?]]; try discriminate.
    simpl. f_equal; [lia|exact IH].
  Qed.

  Lemma repr_grepr_single t gs len f :
    Forall (fun g => length g = 1) gs -> (repr t (concat gs) len f <-> grepr t gs len f).
  Proof.
    intros H. unfold repr, grepr. rewrite gshape_single by auto.
    split; intros [H1 [H2 H3]]; repeat split; auto; intros ix Hi.
    - rewrite gindex_single by auto; auto.
    - rewrite <- (gindex_single len) by auto; auto.
  Qed.

  (** ** reshape to natural numbers *)
  Lemma all_nonneg_of_nat s : all_nonneg (map Z.of_nat s) = true.
  Proof. unfold all_nonneg. apply forallb_forall. intros z Hz. apply in_map_iff in Hz as [n [<- _]]. apply Z.leb_le; lia. Qed.

  Lemma to_nats_of_nat s : to_nats (map Z.of_nat s) = s.
  Proof. unfold to_nats. rewrite map_map. rewrite <- (map_id s) at 2. apply map_ext. intros; apply Nat2Z.id. Qed.

  Lemma reshape_nat lib t s :
    prodn s = prodn (shp t) -> t_reshape lib t (map Z.of_nat s) = Ok (mkT s (dat t)).
  Proof.
    intros H. unfold t_reshape, resolve_shape. rewrite all_nonneg_of_nat, to_nats_of_nat.
    rewrite H, Nat.eqb_refl. reflexivity.
  Qed.

  (** ** transpose *)
  Lemma transpose_repr t ns ms len f perm :
    NoDup ns -> Permutation ns ms ->
    Forall2 (fun p a => index_of eqb a ns = Some p) perm ms ->
    repr t ns len f -> exists t', t_transpose t perm = Ok t' /\ repr t' ms len f.
  Proof.
    intros Hnd Hp HF [Hw [Hs Hg]].
    assert (Hndm : NoDup ms) by (eapply Permutation_NoDup; eauto).
    assert (Hlen : length perm = length ns).
    { rewrite (Forall2_length _ _ _ HF). symmetry; apply Permutation_length; auto. }
    assert (Hlt : forall p, In p perm -> p < length ns).
    { intros p Hin. clear -HF Hin eqb_spec. induction HF as [|q a perm ms H HF IH]; [inversion Hin|].
      destruct Hin as [->|Hin]; [eapply index_of_lt; eauto|auto]. }
    assert (Hndp : NoDup perm).
    { clear -HF Hndm eqb_spec. induction HF as [|q a perm ms H HF IH]; constructor.
      - inversion Hndm as [|? ? Ha Hnd]; subst. intros Hin.
        clear IH. induction HF as [|q' a' perm ms H' HF IH]; [inversion Hin|].
        destruct Hin as [->|Hin].
        + apply (index_of_Some eqb eqb_spec) in H. apply (index_of_Some eqb eqb_spec) in H'.
          rewrite H in H'; inversion H'; subst. apply Ha; left; auto.
        + inversion Hndm as [|? ? Hx Hy]; subst. inversion Hy; subst. apply IH; auto.
          * constructor; auto. intros G; apply Ha; right; auto.
          * intros G; apply Ha; right; auto.
      - inversion Hndm; subst; auto. }
    unfold t_transpose.
    assert (Hperm : is_permutation perm (length (shp t)) = true).
    { unfold is_permutation. rewrite Hs, map_length, Hlen, Nat.eqb_refl. simpl.
      apply andb_true_iff; split; [|apply nat_nodupb_NoDup; auto].
      apply forallb_forall. intros p Hin. apply Nat.ltb_lt. auto. }
    rewrite Hperm. clear Hperm.
    assert (Hshape : map (fun a => nth a (shp t) 0) perm = map len ms).
    { rewrite Hs. clear -HF eqb_spec. induction HF as [|q a perm ms H HF IH]; simpl; [reflexivity|]. f_equal; auto.
      apply (index_of_Some eqb eqb_spec) in H. apply nth_error_nth. apply map_nth_error; auto. }
    rewrite Hshape.
    (* the index translation *)
    assert (Hidx : forall ix,
        map (fun a => match index_of Nat.eqb a perm with Some k => nth k (map ix ms) 0 | None => 0 end)
            (seq 0 (length (shp t))) = map ix ns).
    { intros ix. rewrite Hs, map_length. apply list_ext. intros i.
      destruct (nth_error ns i) as [a|] eqn:Ei.
      - assert (Hi : i < length ns) by (apply nth_error_Some; congruence).
        erewrite map_nth_error by (apply nth_error_seq; auto). simpl.
        erewrite (map_nth_error ix) by eauto. f_equal.
        assert (Ha : In a ms) by (eapply Permutation_in; eauto; eapply nth_error_In; eauto).
        apply In_nth_error in Ha as [k Hk].
        assert (Hpk : nth_error perm k = Some i).
        { clear -HF Hk Ei Hnd eqb_spec. revert k Hk. induction HF as [|q b perm ms H HF IH]; intros k Hk; [destruct k; discriminate|].
          destruct k as [|k]; simpl in *; [|auto]. inversion Hk; subst.
          rewrite (index_of_nth eqb eqb_spec _ _ _ Hnd Ei) in H. congruence. }
        rewrite (index_of_nth Nat.eqb Nat_eqb_spec' _ _ _ Hndp Hpk).
        apply nth_error_nth. apply map_nth_error; auto.
      - transitivity (@None nat); [|symmetry]; apply nth_error_None; rewrite ?map_length, ?seq_length; apply nth_error_None in Ei; lia. }
    destruct (tabulate_total (map len ms) (fun idx =>
      getr t (map (fun a => match index_of Nat.eqb a perm with Some k => nth k idx 0 | None => 0 end)
                  (seq 0 (length (shp t)))))) as [t' Ht'].
    { intros idx Hi.
      assert (Hl : length idx = length ms) by (apply inb_length in Hi; rewrite map_length in Hi; auto).
      rewrite <- (assign_map (fun _ => 0) ms idx Hndm Hl). rewrite Hidx.
      apply getr_wf; auto. rewrite Hs. apply inb_map. intros a Ha.
      apply (within_assign len (fun _ => 0) ms idx Hndm Hi). eapply Permutation_in; eauto. }
    exists t'; split; auto. apply tabulate_Ok in Ht' as [Hw' [Hs' Hg']]. repeat split; auto.
    intros ix Hi. rewrite Hg' by (apply inb_within; auto). rewrite Hidx. apply Hg.
    eapply within_incl; [|exact Hi]. intros a Ha. eapply Permutation_in; eauto.
  Qed.

  (** ** reduction of the trailing axes *)
  Definition reduced_value (red : list A -> result A) (f : (X -> nat) -> result A) len rs ix : result A :=
    let* xs := mapM (fun r => f (assign eqb ix rs r)) (indices (map len rs)) in red xs.

  Lemma reduce_eq red t ks rs len f :
    NoDup (ks ++ rs) -> repr t (ks ++ rs) len f ->
    exists h, t_reduce red t (seq (length ks) (length rs)) = tabulate (map len ks) h /\
              forall ix, within len ix ks -> h (map ix ks) = reduced_value red f len rs ix.
  Proof.
    intros Hnd [Hw [Hs Hg]]. unfold t_reduce.
    assert (Hn : length (shp t) = length ks + length rs) by (rewrite Hs, map_length, app_length; auto).
    assert (Hc : forallb (fun a => a <? length (shp t)) (seq (length ks) (length rs))
                 && nat_nodupb (seq (length ks) (length rs)) = true).
    { apply andb_true_iff; split; [|apply nat_nodupb_NoDup, seq_NoDup].
      apply forallb_forall. intros a Ha. apply in_seq in Ha. apply Nat.ltb_lt. lia. }
    rewrite Hc; clear Hc.
    assert (Hmask : map (fun k => nat_mem k (seq (length ks) (length rs))) (seq 0 (length (shp t)))
                    = repeat false (length ks) ++ repeat true (length rs)).
    { rewrite Hn. pose proof (mask_trailing (length ks + length rs) (length ks)) as M.
      replace (length ks + length rs - length ks) with (length rs) in M by lia. apply M; lia. }
    cbv zeta. rewrite Hmask. rewrite Hs, map_app.
    rewrite <- (map_length len ks), <- (map_length len rs), !select_trailing.
    eexists; split; [reflexivity|]. intros ix Hi. simpl.
    unfold reduced_value. f_equal. apply mapM_ext_in. intros r Hr. apply indices_In in Hr.
    pose proof (inb_length _ _ Hr) as Hl. rewrite map_length in Hl.
    apply NoDup_app_iff in Hnd as [Hk [Hrs Hd]].
    replace (length (map len ks)) with (length (map ix ks)) by (rewrite !map_length; auto).
    replace (length (map len rs)) with (length r) by (rewrite map_length; auto).
    rewrite merge_trailing.
    rewrite <- Hg.
    - rewrite map_app, assign_map by auto. rewrite assign_map_out by auto. reflexivity.
    - apply within_app; split.
      + intros a Ha. rewrite assign_out by auto. auto.
      + apply within_assign; auto.
  Qed.

  Lemma reduce_repr red t ks rs len f t' :
    NoDup (ks ++ rs) -> repr t (ks ++ rs) len f ->
    t_reduce red t (seq (length ks) (length rs)) = Ok t' ->
    repr t' ks len (reduced_value red f len rs).
  Proof.
    intros Hnd Hr Ht. destruct (reduce_eq red _ _ _ _ _ Hnd Hr) as [h [E Hh]]. rewrite E in Ht.
    apply tabulate_Ok in Ht as [Hw' [Hs' Hg']]. repeat split; auto.
    intros ix Hi. rewrite Hg' by (apply inb_within; auto). auto.
  Qed.

  Lemma reduce_total red t ks rs len f :
    NoDup (ks ++ rs) -> repr t (ks ++ rs) len f ->
    (forall ix, within len ix ks -> exists a, reduced_value red f len rs ix = Ok a) ->
    exists t', t_reduce red t (seq (length ks) (length rs)) = Ok t'.
  Proof.
    intros Hnd Hr Ht. destruct (reduce_eq red _ _ _ _ _ Hnd Hr) as [h [E Hh]]. rewrite E.
    apply NoDup_app_iff in Hnd as [Hk [Hrs Hd]].
    apply tabulate_total. intros idx Hi.
    assert (Hl : length idx = length ks) by (apply inb_length in Hi; rewrite map_length in Hi; auto).
    rewrite <- (assign_map (fun _ => 0) ks idx Hk Hl).
    pose proof (within_assign len (fun _ => 0) ks idx Hk Hi) as Hwi.
    rewrite Hh by exact Hwi. apply Ht. exact Hwi.
  Qed.

  Lemma reduced_value_total red t ks rs len f ix t' :
    NoDup (ks ++ rs) -> repr t (ks ++ rs) len f ->
    t_reduce red t (seq (length ks) (length rs)) = Ok t' -> within len ix ks ->
    exists a, reduced_value red f len rs ix = Ok a.
  Proof.
    intros Hnd Hr Ht Hi. pose proof (reduce_repr _ _ _ _ _ _ _ Hnd Hr Ht) as [Hw' [Hs' Hg']].
    rewrite <- Hg' by auto. apply getr_wf; auto. rewrite Hs'. apply inb_map; auto.
  Qed.

  (** ** adding axes *)
  Section Added.
    Context (old : X -> bool) (len : X -> nat).

    Definition added_from (k : nat) (ns : list X) : list (nat * Z) :=
      map (fun '(i, a) => (i, Z.of_nat (len a))) (filter (fun '(_, a) => negb (old a)) (enumerate_from k ns)).
    Definition with_ones (ns : list X) : list nat := map (fun a => if old a then len a else 1) ns.
    Definition reps (nz : Z) (ns : list X) : list Z := map (fun a => if old a then nz else Z.of_nat (len a)) ns.

    Lemma firstn_exact {B} (l1 l2 : list B) : firstn (length l1) (l1 ++ l2) = l1.
    Proof. rewrite firstn_app, Nat.sub_diag, firstn_all. simpl. apply app_nil_r. Qed.
    Lemma skipn_exact {B} (l1 l2 : list B) : skipn (length l1) (l1 ++ l2) = l2.
    Proof. rewrite skipn_app, Nat.sub_diag, skipn_all. reflexivity. Qed.

    Lemma list_upd_mid {B} (l1 l2 : list B) x v : list_upd (l1 ++ x :: l2) (length l1) v = Ok (l1 ++ v :: l2).
    Proof. induction l1 as [|y l1 IH]; simpl; [reflexivity|]. rewrite IH. reflexivity. Qed.

    Lemma expand_dims_mid (s1 s2 : list nat) (d : list A) :
      t_expand_dims (mkT (s1 ++ s2) d) (length s1) = Ok (mkT (s1 ++ 1 :: s2) d).
    Proof.
      unfold t_expand_dims; simpl. rewrite (proj2 (Nat.leb_le _ _)) by (rewrite app_length; lia).
      unfold insert_at. rewrite firstn_exact, skipn_exact. reflexivity.
    Qed.

    Lemma add_loop nz todo donel d :
      foldM (fun '(x, repeats) '(p, l) =>
               let* x := t_expand_dims x p in
               let* repeats := list_upd repeats p l in
               Ok (x, repeats))
        (added_from (length donel) todo)
        (mkT (with_ones donel ++ map len (filter old todo)) d, reps nz donel ++ repeat nz (length todo))
      = Ok (mkT (A := A) (with_ones (donel ++ todo)) d, reps nz (donel ++ todo)).
    Proof.
      revert donel; induction todo as [|a todo IH]; intros donel.
      - simpl. rewrite !app_nil_r. reflexivity.
      - unfold added_from in *. cbn [enumerate_from filter].
        specialize (IH (donel ++ [a])). rewrite <- app_assoc in IH. simpl in IH.
        rewrite app_length in IH; simpl in IH. rewrite Nat.add_1_r in IH.
        unfold with_ones, reps in *. rewrite !map_app, <- !app_assoc in IH. simpl in IH.
        destruct (old a) eqn:Ea; simpl.
        + rewrite !map_app. simpl. rewrite Ea. exact IH.
        + idtac.
          replace (length donel) with (length (map (fun a => if old a then len a else 1) donel)) at 1 by apply map_length.
          rewrite expand_dims_mid. simpl.
          replace (length donel) with (length (map (fun a => if old a then nz else Z.of_nat (len a)) donel)) at 1 by apply map_length.
          rewrite list_upd_mid. simpl. rewrite !map_app. simpl. rewrite Ea. exact IH.
    Qed.

    Lemma squeeze_ones ns ix d :
      (forall a, In a ns -> old a = true -> ix a < len a) ->
      getr (mkT (with_ones ns) d) (map (fun a => if old a then ix a else 0) ns)
      = getr (mkT (A := A) (map len (filter old ns)) d) (map ix (filter old ns)).
    Proof.
      intros H. unfold getr, get; simpl.
      assert (H1 : inb (with_ones ns) (map (fun a => if old a then ix a else 0) ns) = true).
      { unfold with_ones. apply inb_map. intros a Ha. destruct (old a) eqn:E; auto. }
      assert (H2 : inb (map len (filter old ns)) (map ix (filter old ns)) = true).
      { apply inb_map. intros a Ha. apply filter_In in Ha as [Ha E]; auto. }
      rewrite H1, H2. do 2 f_equal. clear. unfold with_ones.
      assert (P : forall ns, prodn (map (fun a => if old a then len a else 1) ns) = prodn (map len (filter old ns))).
      { induction ns0 as [|a l IH]; [reflexivity|]. cbn [map filter]. rewrite prodn_cons, IH.
        destruct (old a); cbn [map]; rewrite ?prodn_cons; lia. }
      induction ns as [|a l IH]; [reflexivity|]. cbn [map filter ravel]. rewrite IH, P.
      destruct (old a); cbn [map ravel]; lia.
    Qed.

    Lemma prodn_with_ones ns : prodn (with_ones ns) = prodn (map len (filter old ns)).
    Proof.
      unfold with_ones. induction ns as [|a l IH]; [reflexivity|]. cbn [map filter]. rewrite prodn_cons, IH.
      destruct (old a); cbn [map]; rewrite ?prodn_cons; lia.
    Qed.

    Lemma tile_add_repr t ns f :
      NoDup ns -> repr t (filter old ns) len f ->
      exists t', tile_add_axes t (length ns) (added_from 0 ns) = Ok t' /\ repr t' ns len f.
    Proof.
      intros Hnd [Hw [Hs Hg]]. destruct t as [s d]; simpl in Hs; subst s.
      unfold tile_add_axes.
      pose proof (add_loop 1%Z ns [] d) as E. simpl in E. rewrite E; clear E. simpl.
      unfold t_tile. simpl.
      assert (Hc : (length (reps 1 ns) =? length (with_ones ns)) && all_nonneg (reps 1 ns) = true).
      { unfold reps, with_ones. rewrite !map_length, Nat.eqb_refl. simpl. unfold all_nonneg.
        apply forallb_forall. intros z Hz. apply in_map_iff in Hz as [a [<- _]]. apply Z.leb_le. destruct (old a); lia. }
      rewrite Hc; clear Hc.
      assert (Hsh : map2 Nat.mul (with_ones ns) (to_nats (reps 1 ns)) = map len ns).
      { unfold with_ones, reps, to_nats. rewrite map_map, map2_map, map2_same. apply map_ext.
        intros a. destruct (old a); rewrite ?Nat2Z.id; lia. }
      rewrite Hsh.
      assert (Hidx : forall ix, within len ix ns ->
         map2 (fun i d0 => i mod d0) (map ix ns) (with_ones ns) = map (fun a => if old a then ix a else 0) ns).
      { intros ix Hi. unfold with_ones. rewrite map2_map, map2_same. apply map_ext_in. intros a Ha.
        specialize (Hi a Ha). destruct (old a); [apply Nat.mod_small; auto|reflexivity]. }
      destruct (tabulate_total (map len ns) (fun idx => getr (mkT (with_ones ns) d) (map2 (fun i d0 => i mod d0) idx (with_ones ns)))) as [t' Ht'].
      { intros idx Hi. assert (Hl : length idx = length ns) by (apply inb_length in Hi; rewrite map_length in Hi; auto).
        rewrite <- (assign_map (fun _ => 0) ns idx Hnd Hl).
        pose proof (within_assign len (fun _ => 0) ns idx Hnd Hi) as Hwi.
        rewrite Hidx by exact Hwi. rewrite squeeze_ones by (intros; apply Hwi; auto).
        apply getr_wf; auto. simpl. apply inb_map. intros a Ha. apply filter_In in Ha as [Ha _]. apply Hwi; auto. }
      exists t'; split; auto. apply tabulate_Ok in Ht' as [Hw' [Hs' Hg']]. repeat split; auto.
      intros ix Hi. rewrite Hg' by (apply inb_within; auto). rewrite Hidx by auto.
      rewrite squeeze_ones by (intros; apply Hi; auto). apply Hg.
      eapply within_incl; [|exact Hi]. intros a Ha. apply filter_In in Ha as [Ha _]; auto.
    Qed.

    Lemma expand_repr_gen (zs : X -> Z) d ns f :
      NoDup ns -> repr (mkT (map len (filter old ns)) d) (filter old ns) len f ->
      (forall a, old a = true -> zs a = (-1)%Z \/ zs a = Z.of_nat (len a)) ->
      (forall a, old a = false -> zs a = Z.of_nat (len a)) ->
      exists t', t_expand (mkT (with_ones ns) d) (map zs ns) = Ok t' /\ repr t' ns len f.
    Proof.
      intros Hnd [Hw [_ Hg]] Hz1 Hz2. unfold t_expand; simpl.
      assert (Hsh : expand_shape (with_ones ns) (map zs ns) = Ok (map len ns)).
      { clear -Hz1 Hz2. unfold with_ones. induction ns as [|a l IH]; simpl; [reflexivity|].
        assert (E : expand_dim (if old a then len a else 1) (zs a) = Ok (len a)).
        { unfold expand_dim. destruct (old a) eqn:Ea.
          - destruct (Hz1 a Ea) as [-> | ->]; [reflexivity|].
            destruct (Z.of_nat (len a) =? -1)%Z eqn:E1; [apply Z.eqb_eq in E1; lia|].
            destruct (Z.of_nat (len a) <? 0)%Z eqn:E2; [apply Z.ltb_lt in E2; lia|].
            rewrite Nat2Z.id, Nat.eqb_refl. destruct (len a =? 1); reflexivity.
          - rewrite (Hz2 a Ea).
            destruct (Z.of_nat (len a) =? -1)%Z eqn:E1; [apply Z.eqb_eq in E1; lia|].
            destruct (Z.of_nat (len a) <? 0)%Z eqn:E2; [apply Z.ltb_lt in E2; lia|].
            simpl. rewrite Nat2Z.id. reflexivity. }
        rewrite E; simpl. rewrite IH. reflexivity. }
      rewrite Hsh. simpl.
      assert (Hidx : forall ix, within len ix ns ->
         map2 (fun i d0 => if d0 =? 1 then 0 else i) (map ix ns) (with_ones ns) = map (fun a => if old a then ix a else 0) ns).
      { intros ix Hi. unfold with_ones. rewrite map2_map, map2_same. apply map_ext_in. intros a Ha.
        specialize (Hi a Ha). destruct (old a); [|reflexivity].
        destruct (len a =? 1) eqn:E; auto. apply Nat.eqb_eq in E; lia. }
      destruct (tabulate_total (map len ns) (fun idx => getr (mkT (with_ones ns) d) (map2 (fun i d0 => if d0 =? 1 then 0 else i) idx (with_ones ns)))) as [t' Ht'].
      { intros idx Hi. assert (Hl : length idx = length ns) by (apply inb_length in Hi; rewrite map_length in Hi; auto).
        rewrite <- (assign_map (fun _ => 0) ns idx Hnd Hl).
        pose proof (within_assign len (fun _ => 0) ns idx Hnd Hi) as Hwi.
        rewrite Hidx by exact Hwi. rewrite squeeze_ones by (intros; apply Hwi; auto).
        apply getr_wf; auto. simpl. apply inb_map. intros a Ha. apply filter_In in Ha as [Ha _]. apply Hwi; auto. }
      exists t'; split; auto. apply tabulate_Ok in Ht' as [Hw' [Hs' Hg']]. repeat split; auto.
      intros ix Hi. rewrite Hg' by (apply inb_within; auto). rewrite Hidx by auto.
      rewrite squeeze_ones by (intros; apply Hi; auto). apply Hg.
      eapply within_incl; [|exact Hi]. intros a Ha. apply filter_In in Ha as [Ha _]; auto.
    Qed.

    Lemma expand_add_repr t ns f :
      NoDup ns -> repr t (filter old ns) len f ->
      exists t', expand_add_axes t (length ns) (added_from 0 ns) = Ok t' /\ repr t' ns len f.
    Proof.
      intros Hnd Hr. pose proof Hr as [Hw [Hs Hg]]. destruct t as [s d]; simpl in Hs; subst s.
      unfold expand_add_axes.
      pose proof (add_loop (-1)%Z ns [] d) as E. simpl in E. rewrite E; clear E. simpl.
      apply (expand_repr_gen (fun a => if old a then (-1)%Z else Z.of_nat (len a))); auto.
      - intros a ->; auto.
      - intros a ->; auto.
    Qed.

    (** the array-API way (einops.py:276-283) *)
    Lemma aa_expand_loop todo donel d :
      foldM (fun t '(p, _) => t_expand_dims t p) (added_from (length donel) todo)
        (mkT (with_ones donel ++ map len (filter old todo)) d)
      = Ok (mkT (A := A) (with_ones (donel ++ todo)) d).
    Proof.
      revert donel; induction todo as [|a todo IH]; intros donel.
      - simpl. rewrite !app_nil_r. reflexivity.
      - unfold added_from in *. cbn [enumerate_from filter].
        specialize (IH (donel ++ [a])). rewrite <- app_assoc in IH. simpl in IH.
        rewrite app_length in IH; simpl in IH. rewrite Nat.add_1_r in IH.
        unfold with_ones in *. rewrite !map_app, <- !app_assoc in IH. simpl in IH.
        destruct (old a) eqn:Ea; simpl.
        + rewrite !map_app. simpl. rewrite Ea. exact IH.
        + idtac.
          replace (length donel) with (length (map (fun a => if old a then len a else 1) donel)) at 1 by apply map_length.
          rewrite expand_dims_mid. simpl. rewrite !map_app. simpl. rewrite Ea. exact IH.
    Qed.

    Lemma aa_upd_loop todo donel :
      foldM (fun s '(p, l) => list_upd s p l) (added_from (length donel) todo)
        (map (fun a => Z.of_nat (len a)) donel ++ map Z.of_nat (with_ones todo))
      = Ok (map (fun a => Z.of_nat (len a)) (donel ++ todo)).
    Proof.
      revert donel; induction todo as [|a todo IH]; intros donel.
      - simpl. rewrite !app_nil_r. reflexivity.
      - unfold added_from in *. cbn [enumerate_from filter].
        specialize (IH (donel ++ [a])). rewrite <- app_assoc in IH. simpl in IH.
        rewrite app_length in IH; simpl in IH. rewrite Nat.add_1_r in IH.
        rewrite !map_app, <- !app_assoc in IH. simpl in IH.
        destruct (old a) eqn:Ea; simpl; rewrite Ea.
        + rewrite !map_app. exact IH.
        + replace (length donel) with (length (map (fun a => Z.of_nat (len a)) donel)) at 1 by apply map_length.
          rewrite list_upd_mid. simpl. rewrite !map_app. exact IH.
    Qed.

    Lemma aa_add_repr t ns f :
      NoDup ns -> repr t (filter old ns) len f ->
      exists t', (let* t := foldM (fun t '(p, _) => t_expand_dims t p) (added_from 0 ns) t in
                  let* s := foldM (fun s '(p, l) => list_upd s p l) (added_from 0 ns) (int_shape t) in
                  t_broadcast_to t s) = Ok t' /\ repr t' ns len f.
    Proof.
      intros Hnd Hr. pose proof Hr as [Hw [Hs Hg]]. destruct t as [s d]; simpl in Hs; subst s.
      pose proof (aa_expand_loop ns [] d) as E. simpl in E. rewrite E; clear E. simpl.
      unfold int_shape; simpl.
      pose proof (aa_upd_loop ns []) as E. simpl in E. rewrite E; clear E. simpl.
      unfold t_broadcast_to.
      replace (all_nonneg (map (fun a => Z.of_nat (len a)) ns)) with true
        by (rewrite <- (map_map len), all_nonneg_of_nat; auto).
      apply expand_repr_gen; auto.
    Qed.
  End Added.
End Steps.
