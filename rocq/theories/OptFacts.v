(** * Joining adjacent axes: what is computed *)
From Coq Require Import Permutation.
From Verif Require Import Py Tensor ListFacts TensorFacts SpecSem StepFacts ReduceFacts SpecOptimize Optimize.

(** a group of labels, marked when it is reduced *)
Notation block := (bool * list nat)%type.

Section Groups.
  Context {A : Type} (len : nat -> nat).
  Notation zero_ix := (fun _ : nat => 0).

  Lemma gindex_ext (ix jx : nat -> nat) gs : (forall a, In a (concat gs) -> ix a = jx a) -> gindex len ix gs = gindex len jx gs.
  Proof.
    intros H. unfold gindex. apply map_ext_in. intros g Hg. f_equal. apply map_ext_in. intros a Ha. apply H. apply in_concat. eauto.
  Qed.

  Lemma indices_groups gs : NoDup (concat gs) ->
    indices (gshape len gs) = map (fun v => gindex len (assign Nat.eqb zero_ix (concat gs) v) gs) (indices (map len (concat gs))).
  Proof.
    intros Hn. apply list_ext. intros k. destruct (nth_error (indices (map len (concat gs))) k) as [v|] eqn:E.
    - erewrite map_nth_error by exact E. assert (Hk := indices_nth_inv _ _ _ E). assert (Hi : inb (map len (concat gs)) v = true) by (apply indices_In; eapply nth_error_In; eauto).
      rewrite <- Hk. assert (Hl : length v = length (concat gs)) by (apply inb_length in Hi; rewrite map_length in Hi; exact Hi).
      rewrite <- (assign_map Nat.eqb Nat.eqb_eq zero_ix (concat gs) v Hn Hl) at 1. rewrite <- ravel_gindex.
      apply indices_nth. apply inb_gindex. apply (within_assign Nat.eqb Nat.eqb_eq); assumption.
    - rewrite (proj2 (nth_error_None _ _)); [symmetry; apply nth_error_None; rewrite map_length; apply nth_error_None; exact E|].
      apply nth_error_None in E. rewrite indices_length in *. rewrite prodn_gshape. exact E.
  Qed.

  Lemma getr_groups gs (d : list A) ix : within len ix (concat gs) ->
    getr (mkT (gshape len gs) d) (gindex len ix gs) = getr (mkT (map len (concat gs)) d) (map ix (concat gs)).
  Proof.
    intros H. unfold getr, get. cbn [shp dat]. rewrite inb_gindex by exact H. rewrite (proj2 (inb_within _ _ _) H). rewrite ravel_gindex. reflexivity.
  Qed.

  (** blocks: groups marked as reduced or not *)
  Implicit Types B : list block.
  Definition gall B : list (list nat) := map snd B.
  Definition gkept B : list (list nat) := map snd (filter (fun b : block => negb (fst b)) B).
  Definition gred B : list (list nat) := map snd (filter (fun b : block => fst b) B).

  Lemma select_blocks B : select false (map fst B) (gshape len (gall B)) = gshape len (gkept B) /\ select true (map fst B) (gshape len (gall B)) = gshape len (gred B).
  Proof.
    induction B as [|[b g] B [IH1 IH2]]; [split; reflexivity|]. cbn in *. split.
    - destruct b; cbn; [exact IH1|]. f_equal. exact IH1.
    - destruct b; cbn; [|exact IH2]. f_equal. exact IH2.
  Qed.
  Lemma merge_blocks B ix : merge (map fst B) (gindex len ix (gkept B)) (gindex len ix (gred B)) = gindex len ix (gall B).
  Proof. induction B as [|[b g] B IH]; [reflexivity|]. cbn. destruct b; cbn; f_equal; exact IH. Qed.

  Lemma blocks_perm B : Permutation (concat (gkept B) ++ concat (gred B)) (concat (gall B)).
  Proof.
    induction B as [|[b g] B IH]; [constructor|]. cbn. destruct b; cbn.
    - rewrite app_assoc. transitivity (g ++ concat (gkept B) ++ concat (gred B)); [|apply Permutation_app_head; exact IH].
      rewrite app_assoc. apply Permutation_app_tail. apply Permutation_app_comm.
    - rewrite <- app_assoc. apply Permutation_app_head. exact IH.
  Qed.

  (** the reduced value at the kept axes' indices [v] *)
  Definition canon (red : list A -> result A) (d : list A) (all K D : list nat) (v : list nat) : result A :=
    let* xs := mapM (fun w => getr (mkT (map len all) d) (map (assign Nat.eqb (assign Nat.eqb zero_ix K v) D w) all)) (indices (map len D)) in red xs.

  Lemma reduce_blocks red (d : list A) B r : NoDup (concat (gall B)) ->
    NoDup r -> (forall a, In a r -> a < length B) -> map (fun k => nat_mem k r) (seq 0 (length B)) = map fst B ->
    t_reduce red (mkT (gshape len (gall B)) d) r =
    let* dd := mapM (canon red d (concat (gall B)) (concat (gkept B)) (concat (gred B))) (indices (map len (concat (gkept B)))) in
    Ok (mkT (gshape len (gkept B)) dd).
  Proof.
    intros Hn Hr Hlt Hm. unfold t_reduce. cbn [shp].
    assert (Hl : length (gshape len (gall B)) = length B) by (unfold gshape, gall; rewrite !map_length; reflexivity). rewrite Hl.
    rewrite (proj2 (andb_true_iff _ _)); [|split; [apply forallb_forall; intros a Ha; apply Nat.ltb_lt, Hlt, Ha|apply nat_nodupb_NoDup; exact Hr]].
    cbv zeta. rewrite Hm. destruct (select_blocks B) as [-> ->]. unfold tabulate.
    assert (Hnp : NoDup (concat (gkept B) ++ concat (gred B))) by (eapply Permutation_NoDup; [apply Permutation_sym, blocks_perm|exact Hn]).
    apply NoDup_app_iff in Hnp as (Hk & Hd & Hkd).
    rewrite (indices_groups (gkept B) Hk), mapM_map. f_equal. apply mapM_ext_in. intros v Hv. apply indices_In in Hv.
    unfold canon. f_equal. rewrite (indices_groups (gred B) Hd), mapM_map. apply mapM_ext_in. intros w Hw. apply indices_In in Hw.
    set (ix := assign Nat.eqb (assign Nat.eqb zero_ix (concat (gkept B)) v) (concat (gred B)) w).
    rewrite (gindex_ext _ ix (gkept B)).
    2:{ intros a Ha. unfold ix. rewrite (assign_out Nat.eqb Nat.eqb_eq (assign _ _ _ _)) by (apply Hkd, Ha). reflexivity. }
    rewrite (gindex_ext _ ix (gred B)).
    2:{ intros a Ha. unfold ix, assign. destruct (index_of_In Nat.eqb Nat.eqb_eq a _ Ha) as [k ->]. reflexivity. }
    rewrite merge_blocks. apply getr_groups. intros a Ha.
    apply (Permutation_in a (Permutation_sym (blocks_perm B))) in Ha. apply in_app_or in Ha as [Ha|Ha].
    - unfold ix. rewrite (assign_out Nat.eqb Nat.eqb_eq) by (apply Hkd, Ha). apply (within_assign Nat.eqb Nat.eqb_eq len _ (concat (gkept B))); assumption.
    - unfold ix. apply (within_assign Nat.eqb Nat.eqb_eq len _ (concat (gred B))); assumption.
  Qed.

  (** transposition of groups *)
  Definition garrange (gs : list (list nat)) (o : list nat) : list (list nat) := map (fun p => nth p gs []) o.

  Lemma arrange_all (gs : list (list nat)) : garrange gs (seq 0 (length gs)) = gs.
  Proof.
    unfold garrange. apply list_ext. intros i. destruct (Nat.lt_ge_cases i (length gs)) as [H|H].
    - erewrite map_nth_error by (apply nth_error_seq; exact H). cbn. symmetry. apply nth_error_nth'. exact H.
    - transitivity (@None (list nat)); [|symmetry]; apply nth_error_None; rewrite ?map_length, ?seq_length; exact H.
  Qed.

  Lemma transpose_groups gs (dd : list A) o : NoDup (concat gs) -> length dd = prodn (gshape len gs) ->
    Permutation o (seq 0 (length gs)) ->
    exists t, t_transpose (mkT (gshape len gs) dd) o = Ok t /\
      repr (mkT (map len (concat (garrange gs o))) (dat t)) (concat (garrange gs o)) len
           (fun ix => getr (mkT (map len (concat gs)) dd) (map ix (concat gs))).
  Proof.
    intros Hn Hd Ho. set (len' := fun p => prodn (map len (nth p gs []))).
    assert (Hs : gshape len gs = map len' (seq 0 (length gs))).
    { rewrite <- (arrange_all gs) at 1. unfold garrange, gshape. rewrite map_map. reflexivity. }
    assert (Hno : NoDup o) by (eapply Permutation_NoDup; [apply Permutation_sym; exact Ho|apply seq_NoDup]).
    assert (Hin : forall p, In p o -> p < length gs) by (intros p Hp; apply (Permutation_in p Ho), in_seq in Hp; lia).
    assert (R : repr (mkT (gshape len gs) dd) (seq 0 (length gs)) len' (fun ix' => getr (mkT (gshape len gs) dd) (map ix' (seq 0 (length gs))))).
    { split; [exact Hd|]. split; [exact Hs|]. intros; reflexivity. }
    destruct (transpose_repr Nat.eqb Nat.eqb_eq (mkT (gshape len gs) dd) (seq 0 (length gs)) o len' _ o (seq_NoDup _ _) (Permutation_sym Ho)
                ltac:(clear -Hin; induction o as [|p o IH]; constructor;
                      [rewrite (index_of_nth Nat.eqb Nat.eqb_eq _ p p (seq_NoDup _ _)); [reflexivity|apply nth_error_seq; apply Hin; left; reflexivity]
                      |apply IH; intros; apply Hin; right; assumption]) R) as (t & Et & Hw & Hst & Hg).
    exists t. split; [exact Et|]. apply (grepr_repr len (garrange gs o) _ (shp t)).
    replace (mkT (shp t) (dat t)) with t by (destruct t; reflexivity). split; [exact Hw|]. split.
    - rewrite Hst. unfold gshape, garrange. rewrite map_map. reflexivity.
    - intros ix Hix. specialize (Hg (fun p => ravel (map len (nth p gs [])) (map ix (nth p gs [])))).
      assert (Ei : forall l, map (fun p => ravel (map len (nth p gs [])) (map ix (nth p gs []))) l = gindex len ix (garrange gs l)) by (intros l; unfold gindex, garrange; rewrite map_map; reflexivity).
      rewrite !Ei, arrange_all in Hg. rewrite Hg.
      + apply getr_groups. intros a Ha. apply Hix. apply in_concat in Ha as (g & Hgi & Ha). apply in_concat. exists g. split; [|exact Ha].
        apply In_nth with (d := []) in Hgi as (p & Hp & <-). unfold garrange. apply in_map_iff. exists p. split; [reflexivity|].
        apply (Permutation_in p (Permutation_sym Ho)). apply in_seq. lia.
      + intros p Hp. apply ravel_lt. apply inb_within. intros a Ha. apply Hix. apply in_concat. exists (nth p gs []). split; [|exact Ha].
        unfold garrange. apply in_map_iff. eauto.
  Qed.

  Lemma arrange_perm gs o : Permutation o (seq 0 (length gs)) -> Permutation (concat (garrange gs o)) (concat gs).
  Proof.
    intros H. rewrite <- (arrange_all gs) at 2. unfold garrange. rewrite <- !flat_map_concat_map. apply Permutation_flat_map. exact H.
  Qed.

  Definition well_marked B r o : Prop :=
    NoDup (concat (gall B)) /\ NoDup r /\ (forall a, In a r -> a < length B) /\
    map (fun k => nat_mem k r) (seq 0 (length B)) = map fst B /\ Permutation o (seq 0 (length (gkept B))).

  (** the result depends on the order of the labels only *)
  Lemma flat_same lib red (x : tensor A) B r o B' r' o' : wf x -> well_marked B r o -> well_marked B' r' o' ->
    concat (gall B) = concat (gall B') -> concat (gkept B) = concat (gkept B') -> concat (gred B) = concat (gred B') ->
    concat (garrange (gkept B) o) = concat (garrange (gkept B') o') ->
    flat_result lib red x (gshape len (gall B)) r o = flat_result lib red x (gshape len (gall B')) r' o'.
  Proof.
    intros Hx (H1 & H2 & H3 & H4 & H5) (H1' & H2' & H3' & H4' & H5') Ea Ek Ed Ef. unfold flat_result.
    unfold t_reshape, resolve_shape. rewrite !all_nonneg_of_nat, !to_nats_of_nat.
    assert (Ep : prodn (gshape len (gall B')) = prodn (gshape len (gall B))) by (rewrite !prodn_gshape, Ea; reflexivity). rewrite Ep.
    destruct (prodn (gshape len (gall B)) =? prodn (shp x)) eqn:E; [|reflexivity]. apply Nat.eqb_eq in E. cbn [bind].
    rewrite (reduce_blocks red (dat x) B r H1 H2 H3 H4), (reduce_blocks red (dat x) B' r' H1' H2' H3' H4').
    rewrite <- Ea, <- Ek, <- Ed. destruct (mapM _ (indices (map len (concat (gkept B))))) as [dd|ex] eqn:Em; cbn [bind]; [|reflexivity].
    assert (Ld : length dd = prodn (map len (concat (gkept B)))) by (apply mapM_length in Em; rewrite Em, indices_length; reflexivity).
    assert (Hk : forall C, NoDup (concat (gall C)) -> NoDup (concat (gkept C))).
    { intros C HC. assert (X := Permutation_NoDup (Permutation_sym (blocks_perm C)) HC). apply NoDup_app_iff in X as (X & _). exact X. }
    destruct (transpose_groups (gkept B) dd o (Hk _ H1) ltac:(rewrite prodn_gshape; exact Ld) H5) as (t & Et & Rt).
    destruct (transpose_groups (gkept B') dd o' (Hk _ H1') ltac:(rewrite prodn_gshape, <- Ek; exact Ld) H5') as (t' & Et' & Rt').
    rewrite Et, Et'. cbn [bind]. f_equal. rewrite <- Ef, <- Ek in Rt'.
    assert (U := repr_unique Nat.eqb Nat.eqb_eq _ _ _ _ _ ltac:(eapply Permutation_NoDup; [apply Permutation_sym, arrange_perm, H5|apply Hk, H1]) Rt Rt').
    injection U as ->. reflexivity.
  Qed.
End Groups.
