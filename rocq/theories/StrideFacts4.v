(** * Facts about arrays in memory: unpack, pack, writing, and a library *)
From Verif Require Import Py Tensor ListFacts TensorFacts SpecSem SpecGrammar SpecPattern SpecOps SpecCalls SpecElements ElementFacts Parsing Recipe Ops Backends Api Packing SymFacts Strides SpecStrides StrideFacts StrideFacts2 StrideFacts3.

Lemma slice_shape {A} (v : array A) axis lo hi v' : v_slice v axis lo hi = Ok v' ->
  exists b d a n, a_shp v = b ++ d :: a /\ length b = axis /\ a_shp v' = b ++ n :: a.
Proof.
  unfold v_slice. destruct (axis <? length (a_shp v)) eqn:E; [|discriminate]. intros H. injection H as <-. apply Nat.ltb_lt in E. cbn [a_shp]. unfold replace_nth.
  destruct (skipn axis (a_shp v)) as [|d a] eqn:Es; [apply (f_equal (@length nat)) in Es; rewrite skipn_length in Es; cbn in Es; lia|].
  exists (firstn axis (a_shp v)), d, a. eexists. split; [rewrite <- Es, firstn_skipn; reflexivity|]. split; [rewrite firstn_length; lia|]. reflexivity.
Qed.

Section Unpack.
  Context {A : Type} (mem : memory A) (nocopy : list nat -> list Z -> list nat -> option (list Z)) (Hnc : nocopy_ok nocopy) (r : runtime A).
  Lemma frame_view (b : buffer A) v : forall be n af st es s', a_shp v = be ++ n :: af -> length (a_str v) = length (a_shp v) ->
    resolve_shape (rt_lib r) (prodn (a_shp v)) (map Z.of_nat be ++ es ++ map Z.of_nat af) = Ok s' -> view b v st -> nocopy (a_shp v) (a_str v) s' <> None.
  Proof.
    intros be n af st es s' Es Hl E _. destruct (resolve_frame _ _ _ _ _ _ E) as [es' ->]. pose proof (resolve_prod _ _ _ _ E) as P. destruct (Nat.eq_dec (prodn (a_shp v)) 0) as [E0|E0].
    - apply (nc_empty _ Hnc); [exact Hl|exact E0|congruence].
    - rewrite Es in P, E0 |- *. rewrite !prodn_app, prodn_cons in P. rewrite prodn_app, prodn_cons in E0. assert (Ee : prodn es' = n) by nia.
      pose proof (nc_split _ Hnc (map (fun d => [d]) be ++ es' :: map (fun d => [d]) af) (a_str v) 0) as G.
      assert (S : forall l : list nat, map prodn (map (fun d => [d]) l) = l) by (intros l; rewrite map_map; rewrite <- (map_id l) at 2; apply map_ext; intros; cbn; lia).
      assert (C : forall l : list nat, concat (map (fun d => [d]) l) = l) by (intros l; induction l as [|d l IH]; cbn; congruence).
      rewrite map_app in G. cbn [map] in G. rewrite !S, Ee in G. rewrite concat_app in G. cbn [concat repeat app] in G. rewrite !C in G. apply G. rewrite Hl, Es, !app_length. cbn [length]. rewrite !map_length. reflexivity.
  Qed.
  Lemma unpack_view x s pattern (rZ : runtime Z) : rt_unicode rZ = rt_unicode r -> rt_lib rZ = rt_lib r -> length (a_str x) = length (a_shp x) ->
    both (Forall2 (view (a_buf x))) (v_unpack mem nocopy r x s pattern) (unpack rZ (places x) s pattern).
  Proof.
    intros Eu El Hl. unfold v_unpack, unpack, unpack_with, unpack_given. rewrite backend_shape. unfold int_shape. cbn [array_backend b_shape shp places]. rewrite Eu. apply both_bind_same. intros [[nb na] mn].
    apply both_bind_same. intros _. apply both_bind_same. intros _. apply both_bind_same. intros n. apply both_bind_same. intros sp.
    match goal with |- both _ (match ?m with _ => _ end) (match ?m' with _ => _ end) => assert (M : both (Forall2 (view (a_buf x))) m m') end.
    { apply both_mapM_same. intros [i es]. apply both_bind_same. intros lo. apply both_bind_same. intros hi. rewrite backend_slice. cbn [array_backend b_slice].
      pose proof (slice_view (a_buf x) x (places x) nb lo hi (conj eq_refl (conj Hl eq_refl))) as V. destruct (v_slice x nb lo hi) as [u|] eqn:Ev; [|destruct (t_slice _ _ _ _); [contradiction|exact V]].
      destruct (t_slice _ _ _ _) as [u'|]; [|contradiction]. cbn [bind]. rewrite backend_reshape, El. cbn [array_backend b_reshape].
      apply reshape_view; [exact Hnc|exact V|]. destruct (slice_shape _ _ _ _ _ Ev) as (be & d & af & k & S1 & S2 & S3).
      intros s' E. rewrite S1 in E. rewrite map_app in E. cbn [map] in E. rewrite <- S2 in E.
      replace (firstn (length be) (map Z.of_nat be ++ Z.of_nat d :: map Z.of_nat af)) with (map Z.of_nat be) in E by (rewrite <- (map_length Z.of_nat be), firstn_app, Nat.sub_diag, firstn_all; cbn; rewrite app_nil_r; reflexivity).
      replace (skipn (length be + 1) (map Z.of_nat be ++ Z.of_nat d :: map Z.of_nat af)) with (map Z.of_nat af) in E.
      2:{ rewrite <- (map_length Z.of_nat be), skipn_app, skipn_all2 by lia. replace (length (map Z.of_nat be) + 1 - length (map Z.of_nat be)) with 1 by lia. reflexivity. }
      eapply frame_view; [exact S3|apply V|exact E|exact V]. }
    revert M. repeat match goal with |- context [match ?m with Ok _ => Ok _ | Err _ => _ end] => destruct m end; cbn; auto.
  Qed.
  Lemma unpack_pieces x s pattern (rZ : runtime Z) ys : rt_unicode rZ = rt_unicode r -> rt_lib rZ = rt_lib r -> length (a_str x) = length (a_shp x) ->
    v_unpack mem nocopy r x s pattern = Ok ys -> Forall (fun y => a_buf y = a_buf x) ys /\ unpack rZ (places x) s pattern = Ok (map places ys).
  Proof.
    intros Eu El Hl H. pose proof (unpack_view x s pattern rZ Eu El Hl) as G. rewrite H in G. destruct (unpack rZ _ _ _) as [ps|]; [|contradiction]. cbn in G. split.
    - clear -G. induction G as [|y p ys ps V G IH]; constructor; [apply V|exact IH].
    - f_equal. clear -G. induction G as [|y p ys ps V G IH]; [reflexivity|]. cbn. destruct V as (_ & _ & <-). congruence.
  Qed.
  Lemma pack_new xs pattern y ps : v_pack mem nocopy r xs pattern = Ok (y, ps) -> own_buffer y.
  Proof.
    unfold v_pack, pack_with, pack_given. intros H. apply bind_Ok in H as [[[nb na] mn] [_ H]]. apply bind_Ok in H as [_ [_ H]]. apply bind_Ok in H as [[l s] [_ H]].
    apply bind_Ok in H as [t [E H]]. injection H as <- <-. eapply compute_new, E.
  Qed.
  Lemma list_new xs pattern red sizes y : (forall f, red <> RCall f) -> v_reduce mem nocopy r (Many xs) pattern red sizes = Ok y -> own_buffer y.
  Proof.
    intros Hred H. unfold v_reduce, api_reduce in H. apply bind_Ok in H as [_ [_ H]]. apply bind_Ok in H as [v [Es H]]. apply bind_Ok in H as [rc [_ H]]. unfold apply_recipe in H. apply bind_Ok in H as [k [_ H]].
    assert (N : own_buffer v) by (destruct xs; [discriminate|]; eapply compute_new, Es). unfold apply_cooked in H.
    apply bind_Ok in H as [v1 [E1 H]]. apply bind_Ok in H as [v2 [E2 H]]. apply bind_Ok in H as [v3 [E3 H]]. apply v_tail_buf in H as [T1 _]. apply (new_stays v3); [exact T1|].
    assert (N1 : own_buffer v1) by (destruct (k_init k); [eapply new_stays; [eapply v_reshape_buf, E1|exact N]|injection E1 as <-; exact N]).
    assert (N2 : own_buffer v2) by (destruct (k_reorder k); [eapply new_stays; [left; eapply v_transpose_buf, E2|exact N1]|injection E2 as <-; exact N1]).
    destruct (k_reduced k) as [|a l]; [injection E3 as <-; exact N2|]. destruct red as [s|f]; [|exfalso; eapply Hred; reflexivity]. cbn [reduce_axes] in E3.
    apply bind_Ok in E3 as [_ [_ E3]]. apply bind_Ok in E3 as [_ [_ E3]]. eapply compute_new, E3.
  Qed.
End Unpack.

(** ** writing *)
Lemma replace_nth_same {X} k (x : X) l : k < length l -> nth_error (replace_nth k x l) k = Some x.
Proof.
  intros H. unfold replace_nth. rewrite nth_error_app2 by (rewrite firstn_length; lia). rewrite firstn_length, Nat.min_l, Nat.sub_diag by lia.
  destruct (skipn k l) eqn:E; [apply (f_equal (@length X)) in E; rewrite skipn_length in E; cbn in E; lia|]. reflexivity.
Qed.
Lemma replace_nth_other {X} (x : X) l : forall k j, j <> k -> nth_error (replace_nth k x l) j = nth_error l j.
Proof.
  unfold replace_nth. induction l as [|a l IH]; intros [|k] [|j] H; try reflexivity; try contradiction. cbn [firstn skipn app nth_error]. apply IH. congruence.
Qed.
Lemma alike_get {X Y} (P : X -> Y -> Prop) t t' idx x : alike P t t' -> get t idx = Some x -> exists y, get t' idx = Some y /\ P x y.
Proof.
  intros [Es F] H. unfold get in *. rewrite <- Es. destruct (inb (shp t) idx); [|discriminate]. revert H. generalize (ravel (shp t) idx). induction F as [|a b l l' Hab F IH]; intros [|n] H; try discriminate; cbn in *; eauto.
  injection H as ->. eauto.
Qed.
Lemma places_at {A} (v : array A) idx k : get (places v) idx = Some k <-> inb (a_shp v) idx = true /\ k = (a_off v + dot (a_str v) idx)%Z.
Proof.
  destruct (inb (a_shp v) idx) eqn:E.
  - pose proof (places_get (a_off v) (a_shp v) (a_str v) idx E) as G. unfold getr in G. change (mkT (a_shp v) _) with (places v) in G. destruct (get (places v) idx); [|discriminate]. cbn in G. injection G as ->. split; [intros H; injection H as <-; auto|intros [_ ->]; reflexivity].
  - unfold get. cbn [shp places]. rewrite E. split; [discriminate|intros [H _]; discriminate].
Qed.

Section Write.
  Context {A : Type} (mem : memory A) (x y : array A) (t : tensor A) (id : nat) (i : list nat) (k : Z) (a : A).
  Context (Hb : a_buf x = Old id) (Hy : a_buf y = Old id) (Ht : shows mem x t) (Hi : get (places y) i = Some k).
  Notation mem' := (write mem y i a).

  Lemma write_at k' c : at_place mem (Old id) k' c -> k' <> k -> (0 <= k)%Z -> at_place mem' (Old id) k' c.
  Proof.
    intros [H1 H2] Hne Hk. split; [exact H1|]. unfold write. rewrite Hy. cbn [contents] in *. rewrite Nat.eqb_refl. apply places_at in Hi as [_ <-]. rewrite replace_nth_other; [exact H2|lia].
  Qed.
  Lemma write_here c : at_place mem (Old id) k c -> at_place mem' (Old id) k a.
  Proof.
    intros [H1 H2]. split; [exact H1|]. unfold write. rewrite Hy. cbn [contents] in *. rewrite Nat.eqb_refl. apply places_at in Hi as [_ <-]. apply replace_nth_same. apply nth_error_Some. congruence.
  Qed.
  (** afterwards [x] shows the new element wherever it looks at that place *)
  Lemma write_shows : (exists j, get (places x) j = Some k) -> exists t', shows mem' x t' /\
    forall j, inb (a_shp x) j = true -> get t' j = if (a_off x + dot (a_str x) j =? k)%Z then Some a else get t j.
  Proof.
    intros [j0 Hj0]. destruct Ht as [Hl F]. assert (K : exists c, at_place mem (Old id) k c).
    { rewrite Hb in F. destruct (alike_get _ _ _ _ _ F Hj0) as [c [_ Hc]]. eauto. }
    destruct K as [c Hc].
    assert (G : forall ps d, Forall2 (at_place mem (Old id)) ps d -> exists d', Forall2 (at_place mem' (Old id)) ps d').
    { intros ps d G. induction G as [|p b ps d Hp G [d' IH]]; [exists []; constructor|]. destruct (Z.eq_dec p k) as [->|Hne].
      - exists (a :: d'). constructor; [eapply write_here, Hc|exact IH].
      - exists (b :: d'). constructor; [apply write_at; auto; apply Hc|exact IH]. }
    destruct F as [Es F]. rewrite Hb in F. destruct (G _ _ F) as [d' F']. exists (mkT (a_shp x) d').
    assert (S' : shows mem' x (mkT (a_shp x) d')) by (split; [exact Hl|]; split; [reflexivity|]; rewrite Hb; exact F'). split; [exact S'|].
    intros j Hj. assert (P : get (places x) j = Some (a_off x + dot (a_str x) j)%Z) by (apply places_at; auto).
    destruct S' as [_ S']. rewrite Hb in S'. destruct (alike_get _ _ _ _ _ S' P) as [c' [E1 E2]]. rewrite E1.
    destruct Ht as [_ T]. rewrite Hb in T. destruct (alike_get _ _ _ _ _ T P) as [c2 [E3 E4]]. destruct (_ =? k)%Z eqn:Ek.
    - apply Z.eqb_eq in Ek. rewrite Ek in E2. pose proof (write_here _ Hc) as W. destruct E2 as [_ E2], W as [_ W]. congruence.
    - apply Z.eqb_neq in Ek. rewrite E3. pose proof (write_at _ _ E4 Ek (proj1 Hc)) as W. destruct E2 as [_ E2], W as [_ W]. congruence.
  Qed.
End Write.

(** ** writing into the result of a call *)
Section CallWrite.
  Context {A : Type} (mem : memory A) (nocopy : list nat -> list Z -> list nat -> option (list Z)) (Hnc : nocopy_ok nocopy) (r : runtime A) (Hok : runtime_ok r).
  Context (pattern : pystr) (sizes : list (pystr * Z)) (x : array A) (t : tensor A) (w : role) (L R : expr) (e : nat) (len : label -> nat) (id : nat).
  Context (Hn : NoDup (map fst sizes)) (Hres : no_reserved sizes) (Hc : call_ok (rt_unicode r) w pattern sizes (a_shp x) L R e len).
  Notation gl := (left_groups e L).
  Notation gr := (right_groups e L R).
  Context (Hb : a_buf x = Old id) (Ht : shows mem x t) (Hm : missing gl gr = []) (Hx : fresh_axes gl gr = [] \/ expands (rt_framework r) = true) (Hf : flat_groups gr).
  Context (s : pystr) (Hw : FrontFacts2.op_role (op_of (RStr (T := array A) s)) = Some w).

  Lemma call_write : exists y, v_reduce mem nocopy r (One x) pattern (RStr s) sizes = Ok y /\
    forall ix a, within len ix (concat gl ++ concat gr) ->
    let mem' := write mem y (gindex len ix gr) a in
    (exists t', shows mem' x t' /\ get t' (gindex len ix gl) = Some a /\
       forall j, get (places x) j <> get (places x) (gindex len ix gl) -> get t' j = get t j) /\
    (exists u', shows mem' y u' /\ forall ix', within len ix' (concat gl ++ concat gr) -> same_on (concat gl) ix ix' -> get u' (gindex len ix' gr) = Some a).
  Proof.
    destruct (call_view mem nocopy Hnc r Hok pattern sizes x w L R e len Hn Hres Hc (proj1 Ht) Hm Hx (RStr s) Hw Hf) as (y & E & Eb & El & M). exists y. split; [exact E|]. intros ix a Hi mem'.
    pose proof (reduce_values mem nocopy Hnc r (One x) (One t) pattern (RStr s) (RStr s) sizes Ht eq_refl) as V. rewrite E in V. destruct (reduce r _ _ _ _) as [u|]; [|contradiction]. cbn in V.
    pose proof (co_fits _ _ _ _ _ _ _ _ _ Hc) as [Eg _]. destruct M as (Mw & Ms & Mg).
    assert (Il : inb (a_shp x) (gindex len ix gl) = true) by (rewrite <- Eg; apply StepFacts.inb_gindex; intros l Hl; apply Hi, in_or_app; auto).
    destruct (get (places x) (gindex len ix gl)) as [k|] eqn:Ek.
    2:{ exfalso. rewrite (proj2 (places_at x (gindex len ix gl) _) (conj Il eq_refl)) in Ek. discriminate. }
    assert (Ey : get (places y) (gindex len ix gr) = Some k) by (rewrite (Mg ix Hi); exact Ek). rewrite Hb in Eb. split.
    - destruct (write_shows mem x y t id (gindex len ix gr) k a Hb Eb Ht Ey) as [t' [T1 T2]]; [eauto|]. exists t'. split; [exact T1|]. split.
      + rewrite (T2 _ Il). apply places_at in Ek as [_ ->]. rewrite Z.eqb_refl. reflexivity.
      + intros j Hj. destruct (inb (a_shp x) j) eqn:Ij.
        * rewrite (T2 _ Ij). destruct (_ =? k)%Z eqn:E1; [|reflexivity]. exfalso. apply Hj. apply Z.eqb_eq in E1. apply places_at. split; [exact Ij|congruence].
        * pose proof (shows_wf _ _ _ T1) as [_ S1]. pose proof (shows_wf _ _ _ Ht) as [_ S2]. unfold get. rewrite S1, S2, Ij. reflexivity.
    - destruct (write_shows mem y y u id (gindex len ix gr) k a Eb Eb V Ey) as [u' [U1 U2]]; [eauto|]. exists u'. split; [exact U1|]. intros ix' Hi' Hs.
      assert (E' : get (places y) (gindex len ix' gr) = Some k).
      { rewrite (Mg ix' Hi'), <- Ek. f_equal. unfold gindex. apply map_ext_in. intros g Hg. f_equal. apply map_ext_in. intros l Hl. symmetry. apply Hs. apply in_concat. eauto. }
      apply places_at in E' as [I' ->]. rewrite (U2 _ I'), Z.eqb_refl. reflexivity.
  Qed.
End CallWrite.
