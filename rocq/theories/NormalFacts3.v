(** * Joined axes are a normal form: tensors that tell plans apart *)
From Coq Require Import Permutation Sorted.
From Verif Require Import Py Tensor ListFacts TensorFacts SpecSem StepFacts ReduceFacts SpecOptimize SpecDistinct DistinctFacts Optimize OptFacts OptFacts2 NormalFacts NormalFacts2 StrideFacts2.

(** a single [b] among [n - 1] times [a] makes a difference *)
Definition notices_in {A} (red : list A -> result A) (a b : A) (n : nat) : Prop :=
  forall k m, S (k + m) = n -> exists u v, red (repeat a n) = Ok u /\ red (repeat a k ++ b :: repeat a m) = Ok v /\ u <> v.

Lemma map_same_in {X Y} (f g : X -> Y) l k : map f l = map g l -> In k l -> f k = g k.
Proof. induction l as [|j l IH]; cbn; [contradiction|]. intros E [<-|H]; injection E; auto. Qed.

Section Flat.
  Context (s r o : list nat) (Hs : sensible s r o).
  Notation n := (length s).
  Notation len := (len s).
  Notation K := (K s r).
  Notation D := (D s r).
  Notation KO := (KO s r o).
  Let B := first_blocks n r.

  Lemma B_kept : gkept B = map (fun k => [k]) K.
  Proof. unfold B, gkept, first_blocks, NormalFacts2.K. induction (seq 0 n) as [|k l IH]; [reflexivity|]. cbn. destruct (nat_mem k r); cbn; [exact IH|f_equal; exact IH]. Qed.
  Lemma B_red : gred B = map (fun k => [k]) D.
  Proof. unfold B, gred, first_blocks, NormalFacts2.D. induction (seq 0 n) as [|k l IH]; [reflexivity|]. cbn. destruct (nat_mem k r); cbn; [f_equal; exact IH|exact IH]. Qed.
  Lemma B_order : concat (garrange (gkept B) o) = KO.
  Proof.
    rewrite B_kept. unfold garrange, NormalFacts2.KO. assert (Ho : forall p, In p o -> p < length K) by (intros p Hp; apply (Permutation_in p (o_perm s r o Hs)), in_seq in Hp; lia).
    clear - Ho. induction o as [|p l IH]; [reflexivity|]. cbn [map concat]. rewrite IH by (intros; apply Ho; right; assumption).
    rewrite (nth_indep _ [] [0]) by (rewrite map_length; apply Ho; left; reflexivity). change [0] with ((fun k => [k]) 0). rewrite map_nth. reflexivity.
  Qed.

  Lemma flat_formula {A} lib (red : list A -> result A) x : wf x -> prodn (shp x) = prodn s ->
    (forall v, inb (map len K) v = true -> exists c, canon len red (dat x) (seq 0 n) K D v = Ok c) ->
    exists d, flat_result lib red x s r o = Ok d /\ length d = prodn (map len KO) /\
      forall ix c, within len ix KO -> canon len red (dat x) (seq 0 n) K D (map ix K) = Ok c -> nth_error d (jout s r o ix) = Some c.
  Proof.
    intros Wx Ex Hc. pose proof Hs as (Hl & Hr & Hlt & _). unfold flat_result, t_reshape, resolve_shape. rewrite all_nonneg_of_nat, to_nats_of_nat, Ex, Nat.eqb_refl. cbn [bind].
    assert (LB : length B = n) by (unfold B, first_blocks; rewrite map_length, seq_length; reflexivity).
    assert (Eall : concat (gall B) = seq 0 n) by (unfold B; rewrite first_gall, concat_singles; reflexivity).
    assert (Ek : concat (gkept B) = K) by (rewrite B_kept; apply concat_singles). assert (Ed : concat (gred B) = D) by (rewrite B_red; apply concat_singles).
    assert (Es : gshape len (gall B) = s) by apply first_shape.
    assert (Rd : t_reduce red (mkT s (dat x)) r = let* dd := mapM (canon len red (dat x) (seq 0 n) K D) (indices (map len K)) in Ok (mkT (gshape len (gkept B)) dd)).
    { rewrite <- Es at 1. rewrite (reduce_blocks len red (dat x) B r); [rewrite Eall, Ek, Ed; reflexivity| | | |].
      - rewrite Eall. apply seq_NoDup.
      - exact Hr.
      - rewrite LB. exact Hlt.
      - rewrite LB. unfold B, first_blocks. rewrite map_map. reflexivity. }
    rewrite Rd. destruct (mapM_exists (canon len red (dat x) (seq 0 n) K D) (indices (map len K))) as [dd Edd]; [intros v Hv; apply Hc, indices_In, Hv|].
    rewrite Edd. cbn [bind]. assert (Ldd : length dd = prodn (map len K)) by (apply mapM_length in Edd; rewrite Edd, indices_length; reflexivity).
    assert (LK : length (gkept B) = length K) by (rewrite B_kept, map_length; reflexivity).
    destruct (transpose_groups len (gkept B) dd o) as (t & Et & Rt).
    - rewrite Ek. apply K_NoDup.
    - rewrite prodn_gshape, Ek. exact Ldd.
    - rewrite LK. apply (o_perm s r o Hs).
    - rewrite Et. cbn [bind]. rewrite B_order, Ek in Rt. destruct Rt as (Wt & _ & Gt). exists (dat t). split; [reflexivity|]. split; [exact Wt|].
      intros ix c Wi Ec. specialize (Gt ix Wi). assert (Wk : within len ix K) by (intros k Hk; apply Wi, (Permutation_in k (Permutation_sym (KO_perm s r o Hs))), Hk).
      unfold getr, get in Gt. cbn [shp dat] in Gt. rewrite (proj2 (inb_within _ _ _) Wi), (proj2 (inb_within _ _ _) Wk) in Gt.
      pose proof (indices_nth _ _ (proj2 (inb_within len ix K) Wk)) as Ni. destruct (mapM_nth _ _ _ _ _ Edd Ni) as (c' & Nc & Ec'). rewrite Ec in Ec'. injection Ec' as <-.
      rewrite Nc in Gt. cbn in Gt. unfold jout. rewrite enc_ravel. destruct (nth_error (dat t) (ravel (map len KO) (map ix KO))); [|discriminate]. cbn in Gt. congruence.
  Qed.

  Context {A : Type} (a b : A) (red : list A -> result A) (lib : bool) (Hn : notices_in red a b (prodn (map len D))) (H2 : Forall (fun d => 2 <= d) s).
  Definition spike (N p : nat) : tensor A := mkT [N] (map (fun q => if q =? p then b else a) (seq 0 N)).
  Lemma spike_wf N p : wf (spike N p).
  Proof. unfold wf, spike. cbn. rewrite map_length, seq_length. lia. Qed.

  Lemma spike_result ix0 : within len ix0 (seq 0 n) -> let p := ravel s (map ix0 (seq 0 n)) in
    exists d u v, flat_result lib red (spike (prodn s) p) s r o = Ok d /\ length d = prodn (map len KO) /\ red (repeat a (prodn (map len D))) = Ok u /\ u <> v /\
      nth_error d (jout s r o ix0) = Some v /\
      forall ix, within len ix KO -> jout s r o ix <> jout s r o ix0 -> nth_error d (jout s r o ix) = Some u.
  Proof.
    intros W0. cbv zeta. set (p := ravel s (map ix0 (seq 0 n))). set (x := spike (prodn s) p).
    pose proof (KD_perm s r) as PD. pose proof (K_NoDup s r) as NK. pose proof (D_NoDup s r) as ND.
    assert (Dis : forall k, In k K -> ~ In k D) by (assert (X := Permutation_NoDup (Permutation_sym PD) (seq_NoDup n 0)); apply NoDup_app_iff in X as (_ & _ & X); exact X).
    assert (W0K : within len ix0 K) by (intros k Hk; apply W0, (Permutation_in k PD), in_or_app; left; exact Hk).
    assert (W0D : within len ix0 D) by (intros k Hk; apply W0, (Permutation_in k PD), in_or_app; right; exact Hk).
    pose (full := fun v w => assign Nat.eqb (assign Nat.eqb (fun _ => 0) K v) D w).
    assert (FK : forall v w, inb (map len K) v = true -> map (full v w) K = v).
    { intros v w Hv. rewrite <- (assign_map Nat.eqb Nat.eqb_eq (fun _ => 0) K v NK) at 2 by (apply inb_length in Hv; rewrite map_length in Hv; exact Hv).
      apply map_ext_in. intros k Hk. unfold full. apply (assign_out Nat.eqb Nat.eqb_eq), Dis, Hk. }
    assert (FD : forall v w, inb (map len D) w = true -> map (full v w) D = w) by (intros v w Hw; apply (assign_map Nat.eqb Nat.eqb_eq); [exact ND|apply inb_length in Hw; rewrite map_length in Hw; exact Hw]).
    assert (FW : forall v w, inb (map len K) v = true -> inb (map len D) w = true -> within len (full v w) (seq 0 n)).
    { intros v w Hv Hw k Hk. apply (Permutation_in k (Permutation_sym PD)), in_app_or in Hk as [Hk|Hk].
      - rewrite <- (FK v w Hv) in Hv. apply inb_within in Hv. apply Hv, Hk.
      - rewrite <- (FD v w Hw) in Hw. apply inb_within in Hw. apply Hw, Hk. }
    assert (Gt : forall v w, inb (map len K) v = true -> inb (map len D) w = true ->
       getr (mkT (map len (seq 0 n)) (dat x)) (map (full v w) (seq 0 n)) = Ok (if ravel s (map (full v w) (seq 0 n)) =? p then b else a)).
    { intros v w Hv Hw. pose proof (proj2 (inb_within _ _ _) (FW v w Hv Hw)) as Hi. unfold getr, get. cbn [shp dat]. rewrite Hi. rewrite len_seq in *. unfold x, spike. cbn [dat].
      erewrite map_nth_error; [reflexivity|]. rewrite nth_error_seq; [reflexivity|]. apply ravel_lt. exact Hi. }
    assert (Hit : forall v w, inb (map len K) v = true -> inb (map len D) w = true -> ((ravel s (map (full v w) (seq 0 n)) =? p) = true <-> v = map ix0 K /\ w = map ix0 D)).
    { intros v w Hv Hw. rewrite Nat.eqb_eq. split.
      - intros E. apply (ravel_inj s) in E; [|rewrite <- (len_seq s) at 1; apply inb_within, FW; assumption|rewrite <- (len_seq s) at 1; apply inb_within, W0].
        assert (Ea : forall k, In k (seq 0 n) -> full v w k = ix0 k) by (intros k; exact (map_same_in _ _ _ k E)).
        split; [rewrite <- (FK v w Hv)|rewrite <- (FD v w Hw)]; apply map_ext_in; intros k Hk; apply Ea, (Permutation_in k PD), in_or_app; auto.
      - intros [-> ->]. unfold p. f_equal. apply map_ext_in. intros k Hk. apply (Permutation_in k (Permutation_sym PD)), in_app_or in Hk as [Hk|Hk].
        + pose proof (FK (map ix0 K) (map ix0 D) Hv) as E. exact (map_same_in _ _ _ _ E Hk).
        + pose proof (FD (map ix0 K) (map ix0 D) Hw) as E. exact (map_same_in _ _ _ _ E Hk). }
    assert (El : forall v, inb (map len K) v = true ->
      mapM (fun w => getr (mkT (map len (seq 0 n)) (dat x)) (map (full v w) (seq 0 n))) (indices (map len D)) = Ok (map (fun w => if ravel s (map (full v w) (seq 0 n)) =? p then b else a) (indices (map len D)))).
    { intros v Hv. rewrite <- mapM_pure. apply mapM_ext_in. intros w Hw. apply indices_In in Hw. apply Gt; assumption. }
    assert (ID : length (indices (map len D)) = prodn (map len D)) by apply indices_length.
    assert (HDp : 1 <= prodn (map len D)).
    { assert (X : Forall (fun d => 2 <= d) (map len D)) by (apply Forall_map, Forall_forall; intros k Hk; apply len_ge; [exact H2|]; apply (Permutation_in k (D_perm s r o Hs)) in Hk; apply Hs, Hk).
      clear -X. induction X as [|d l Hd _ IH]; [cbn; lia|]. change (prodn (d :: l)) with (d * prodn l). nia. }
    destruct (one_hot a b (fun w => ravel s (map (full (map ix0 K) w) (seq 0 n)) =? p) (indices (map len D)) (map ix0 D)) as (k & m & Ekm & Lkm).
    { apply indices_NoDup. } { apply indices_In, inb_within, W0D. }
    { intros w Hw. apply indices_In in Hw. rewrite (Hit _ w (proj2 (inb_within _ _ _) W0K) Hw). tauto. }
    rewrite ID in Lkm. destruct (Hn k m Lkm) as (u & v & Eu & Ev & Huv).
    assert (Cc : forall vv, inb (map len K) vv = true -> canon len red (dat x) (seq 0 n) K D vv = Ok (if list_eq_dec Nat.eq_dec vv (map ix0 K) then v else u)).
    { intros vv Hv. unfold canon. change (mapM _ (indices (map len D))) with (mapM (fun w => getr (mkT (map len (seq 0 n)) (dat x)) (map (full vv w) (seq 0 n))) (indices (map len D))).
      rewrite (El vv Hv). cbn [bind]. destruct (list_eq_dec Nat.eq_dec vv (map ix0 K)) as [->|Hne]; [rewrite Ekm; exact Ev|].
      rewrite (all_cold a b (fun w => ravel s (map (full vv w) (seq 0 n)) =? p)); [rewrite ID; exact Eu|].
      intros w Hw. apply indices_In in Hw. destruct (_ =? p) eqn:E; [|reflexivity]. apply (Hit vv w Hv Hw) in E as [E _]. contradiction. }
    destruct (flat_formula lib red x) as (d & Ef & Ld & Nd).
    { apply spike_wf. } { unfold x, spike. cbn. lia. } { intros vv Hv. eauto. }
    assert (PK := KO_perm s r o Hs).
    assert (WK : forall ix, within len ix KO -> inb (map len K) (map ix K) = true) by (intros ix Wi; apply inb_within; intros j Hk; apply Wi, (Permutation_in j (Permutation_sym PK)), Hk).
    assert (W0O : within len ix0 KO) by (intros j Hk; apply W0K, (Permutation_in j PK), Hk).
    exists d, u, v. split; [exact Ef|]. split; [exact Ld|]. split; [exact Eu|]. split; [exact Huv|]. split.
    - apply (Nd ix0); [exact W0O|]. rewrite (Cc _ (WK _ W0O)). destruct (list_eq_dec Nat.eq_dec (map ix0 K) (map ix0 K)); [reflexivity|contradiction].
    - intros ix Wi Hne. apply (Nd ix); [exact Wi|]. rewrite (Cc _ (WK _ Wi)). destruct (list_eq_dec Nat.eq_dec (map ix K) (map ix0 K)) as [E|]; [|reflexivity].
      exfalso. apply Hne. unfold jout. rewrite !enc_ravel. f_equal. apply map_ext_in. intros j Hk. apply (Permutation_in j PK) in Hk. exact (map_same_in _ _ _ _ E Hk).
  Qed.
End Flat.
