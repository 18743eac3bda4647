(** * pack, unpack, parse_shape and _enumerate_directions on graphs: facts *)
From Verif Require Import Py Tensor Parsing Recipe Ops Backends Api ListFacts TensorFacts SymFacts Symbolic SymFacts2 Packing SymPacking.

Lemma computes_shape : forall {E A} (e : E) (f : framework) (n : node E A) t, computes e n t -> Forall2 (stands_for e) (node_shape f n) (int_shape t).
Proof. intros E A e f n t H. apply (node_shape_sim e false). split; [exact H|discriminate]. Qed.
Lemma computes_reshape : forall {E A} (e : E) lib (n : node E A) t s1 s2, computes e n t -> Forall2 (stands_for e) s1 s2 ->
  rsim (computes e) (graph_reshape lib n s1) (t_reshape lib t s2).
Proof.
  intros E A e lib n t s1 s2 H Hs. eapply rsim_weaken; [|apply (reshape_sim e lib false); [split; [exact H|discriminate]|exact Hs]].
  intros a b [H1 _]. exact H1.
Qed.
Lemma eager_backend : forall {A} (r : runtime A), has_graphs (rt_framework r) ->
  rt_backend r = make_backend (rt_lib r) (rt_isf r) (rt_num r) (joint_reduce (rt_red r)) tile_add_axes.
Proof. intros A r H. unfold rt_backend. destruct H as [->|[->| ->]]; reflexivity. Qed.

Lemma replace_nth_len : forall {X} k (x : X) l, length (replace_nth k x l) = length l.
Proof.
  intros X k x l. unfold replace_nth. rewrite <- (firstn_skipn k l) at 3. rewrite !app_length. f_equal. destruct (skipn k l); reflexivity.
Qed.

Section Ops.
  Context {E A : Type} (e : E).
  Implicit Types (n : node E A) (t : tensor A).

  Lemma run_all : forall ns ts, Forall2 (@computes E A e) ns ts -> mapM (fun n => n_run n e) ns = Ok ts.
  Proof. intros ns ts H. induction H as [|a b l m [Hab _] _ IH]; [reflexivity|]. cbn [mapM]. rewrite Hab. cbn [bind]. rewrite IH. reflexivity. Qed.

  Lemma concat_sim : forall ns ts k, Forall2 (@computes E A e) ns ts -> rsim (computes e) (graph_concat ns k) (t_concat ts k).
  Proof.
    intros ns ts k H t' Ht. destruct H as [|n t ns ts Hnt H]; [discriminate|]. eexists. split; [reflexivity|].
    assert (Hall : Forall2 (computes e) (n :: ns) (t :: ts)) by (constructor; assumption). split.
    - cbn [n_run]. rewrite (run_all _ _ Hall). exact Ht.
    - cbn [n_static]. apply none_ok. unfold t_concat in Ht. destruct (_ && _); [|discriminate]. apply tabulate_shp in Ht.
      unfold int_shape. rewrite map_length, Ht, replace_nth_len. apply (static_len e _ _ Hnt).
  Qed.
  Lemma slice_sim : forall n t k a1 b1 a2 b2, computes e n t -> stands_for e a1 a2 -> stands_for e b1 b2 ->
    rsim (computes e) (graph_slice n k a1 b1) (t_slice t k a2 b2).
  Proof.
    intros n t k a1 b1 a2 b2 Hnt Ha Hb t' Ht. eexists. split; [reflexivity|]. split.
    - cbn. unfold run1. rewrite (proj1 Hnt). cbn. rewrite Ha. cbn. rewrite Hb. exact Ht.
    - cbn [n_static]. apply none_ok. unfold t_slice in Ht. destruct (_ <? _); [|discriminate]. apply tabulate_shp in Ht.
      unfold int_shape. rewrite map_length, Ht, replace_nth_len. apply (static_len e _ _ Hnt).
  Qed.
  Lemma arange_sim : forall num d z, stands_for e d z -> rsim (computes e) (@graph_arange E A num d) (t_arange num z).
  Proof.
    intros num d z H t' Ht. eexists. split; [reflexivity|]. split.
    - cbn. rewrite H. exact Ht.
    - cbn [n_static]. injection Ht as <-. unfold int_shape. cbn. constructor; [intros; discriminate|constructor].
  Qed.
End Ops.

Lemma sym_lift_sim : forall {E} (e : E) f a b x y, stands_for e a x -> stands_for e b y ->
  exists c, sym_lift f a b = Ok c /\ stands_for e c (f x y).
Proof.
  unfold stands_for. intros E e f [a|a|] [b|b|] x y Ha Hb; try discriminate; (eexists; split; [reflexivity|]); cbn in *.
  - congruence.
  - rewrite Hb. cbn. congruence.
  - rewrite Ha. cbn. congruence.
  - rewrite Ha, Hb. reflexivity.
Qed.

Lemma enumerate_sim : forall {X Y} (R : X -> Y -> Prop) l1 l2, Forall2 R l1 l2 ->
  Forall2 (fun a b => fst a = fst b /\ R (snd a) (snd b)) (enumerate l1) (enumerate l2).
Proof.
  intros X Y R l1 l2 H. unfold enumerate. generalize 0. induction H; intros k; cbn [enumerate_from]; constructor; auto.
Qed.

Section Functions.
  Context {E A : Type} (r : runtime A) (Hf : has_graphs (rt_framework r)) (e : E).
  Notation ev := (stands_for e).

  Lemma graph_pack_agrees : forall ns ts p t ps, Forall2 (@computes E A e) ns ts -> pack r ts p = Ok (t, ps) ->
    exists n ps1, graph_pack r ns p = Ok (n, ps1) /\ computes e n t /\ Forall2 (Forall2 ev) ps1 ps.
  Proof.
    intros ns ts p t ps H Hp. unfold pack in Hp. rewrite (eager_backend r Hf) in Hp.
    assert (G : rsim (fun a b => computes e (fst a) (fst b) /\ Forall2 (Forall2 ev) (snd a) (snd b)) (graph_pack r ns p) (Ok (t, ps))).
    2:{ destruct (G _ eq_refl) as ([n ps1] & E1 & H1 & H2). exists n, ps1. auto. }
    rewrite <- Hp. clear Hp. unfold graph_pack, pack_with, pack_given.
    apply (rsim_bind eq); [apply rsim_same|]. intros [[nb na] mn] ? <-.
    apply (rsim_bind (computes e)).
    { destruct H as [|n0 t0]; cbn; [apply rsim_err|apply rsim_ok; assumption]. }
    intros _ _ _. apply (rsim_bind (fun a b => Forall2 (computes e) (fst a) (fst b) /\ Forall2 (Forall2 ev) (snd a) (snd b))).
    - apply (rsim_foldM (computes e)); [exact H| |split; constructor].
      intros [l1 q1] [l2 q2] n t0 [Hl Hq] Hnt. cbn [fst snd] in Hl, Hq.
      pose proof (computes_shape e (rt_framework r) n t0 Hnt) as Hs. cbn [b_shape make_backend the_graph_backend graph_backend].
      set (s1 := node_shape (rt_framework r) n) in *. set (s2 := int_shape t0) in *. rewrite (Forall2_len Hs).
      apply (rsim_bind eq); [apply rsim_same|]. intros _ _ _.
      apply (rsim_bind (computes e)).
      + apply computes_reshape; [exact Hnt|]. apply Forall2_app; [apply Forall2_firstn; exact Hs|].
        constructor; [reflexivity|apply Forall2_skipn; exact Hs].
      + intros n1 t1 H1. apply rsim_ok. cbn [fst snd]. split; apply Forall2_app; try assumption; (constructor; [|constructor]); [exact H1|].
        apply Forall2_skipn, Forall2_firstn. exact Hs.
    - intros [l1 q1] [l2 q2] [Hl Hq]. cbn [fst snd] in Hl, Hq. apply (rsim_bind (computes e)); [apply concat_sim; exact Hl|].
      intros n1 t1 H1. apply rsim_ok. auto.
  Qed.

  (** ints, or symbols of a framework that can compare them *)
  Definition answers (d : sdim E) : Prop :=
    match d with SInt _ => True | SSym _ => rt_framework r = Pytensor | SUnknown => False end.
  Definition Q (d : sdim E) (z : Z) : Prop := ev d z /\ answers d /\ sym_eqb r d (-1) = Ok (z =? -1)%Z.

  Lemma comparable_Q : forall d z, comparable (rt_framework r) e d -> ev d z -> Q d z.
  Proof.
    intros d z Hc Hd. split; [exact Hd|]. destruct d as [x|v|]; cbn in Hc; [| |destruct Hc].
    - split; [exact I|]. injection Hd as ->. reflexivity.
    - destruct Hc as [Hc Hn]. split; [exact Hc|]. cbn. rewrite Hc. f_equal. symmetry. apply Z.eqb_neq. intros ->. exact (Hn Hd).
  Qed.
  Lemma answers_mul : forall a b, answers a -> answers b -> answers (d_mul sym_ops a b).
  Proof. intros [a|a|] [b|b|]; cbn; tauto. Qed.
  Lemma answers_product : forall l, Forall answers l -> answers (product sym_ops l).
  Proof.
    intros l H. unfold product. assert (G : forall a, answers a -> answers (fold_left (d_mul sym_ops) l a)).
    { induction H as [|d l Hd _ IH]; intros a Ha; [exact Ha|]. cbn [fold_left]. apply IH, answers_mul; assumption. }
    apply G. exact I.
  Qed.
  Lemma sym_in_Q : forall l1 l2, Forall2 Q l1 l2 -> sym_in r (-1) l1 = Ok (has_minus1 l2).
  Proof.
    intros l1 l2 H. induction H as [|a b l1 l2 [_ [_ Hab]] _ IH]; [reflexivity|]. cbn [sym_in has_minus1 existsb]. rewrite Hab. cbn [bind].
    destruct (b =? -1)%Z; [reflexivity|exact IH].
  Qed.
  Lemma prod_minus1 : forall l, has_minus1 l = false -> prod_shape l <> (-1)%Z.
  Proof.
    intros l H. unfold prod_shape.
    assert (G : forall l a, has_minus1 l = false -> fold_left Z.mul l a = (-1)%Z -> a = (-1)%Z).
    { clear. intros l. induction l as [|d l IH]; intros a H E; [exact E|]. cbn in H, E. apply orb_false_iff in H as [H1 H2].
      specialize (IH _ H2 E). apply Z.eqb_neq in H1.
      assert (Hd : (a * d = -1)%Z) by exact IH. assert (D : (Z.divide d 1)%Z) by (exists (- a)%Z; lia).
      apply Z.divide_1_r in D as [->| ->]; lia. }
    intros Ep. specialize (G l 1%Z H Ep). lia.
  Qed.
  Lemma product_prod : forall l, product int_ops l = prod_shape l.
  Proof. reflexivity. Qed.
  Lemma lengths_Q : forall ps1 ps2, Forall2 (Forall2 Q) ps1 ps2 -> exists l1, graph_lengths r ps1 = Ok l1 /\ Forall2 Q l1 (composed_lengths ps2).
  Proof.
    intros ps1 ps2 H. unfold graph_lengths, composed_lengths. induction H as [|p1 p2 ps1 ps2 Hp _ [l1 [E1 IH]]].
    - exists []. split; [reflexivity|constructor].
    - cbn [mapM map]. rewrite (sym_in_Q _ _ Hp). cbn [bind]. rewrite E1. cbn [bind]. eexists. split; [reflexivity|]. constructor; [|exact IH].
      destruct (has_minus1 p2) eqn:Em.
      + repeat split.
      + pose proof (prod_minus1 _ Em) as Hn.
        assert (Hev : ev (product sym_ops p1) (prod_shape p2)).
        { apply (product_sim _ _ (sym_dim_sim e)). clear - Hp. induction Hp as [|a b l m [H _] _ IH]; constructor; auto. }
        assert (Ha : answers (product sym_ops p1)).
        { apply answers_product. clear - Hp. induction Hp as [|a b l m [_ [H _]] _ IH]; constructor; auto. }
        split; [exact Hev|]. split; [exact Ha|]. destruct (product sym_ops p1) as [x|v|]; cbn in Ha |- *; [| |destruct Ha].
        * injection Hev as ->. reflexivity.
        * rewrite Ha. f_equal. symmetry. apply Z.eqb_neq. exact Hn.
  Qed.
  Lemma unknowns_Q : forall l1 l2, Forall2 Q l1 l2 -> graph_unknowns r l1 = Ok (length (filter (fun x => (x =? -1)%Z) l2)).
  Proof.
    intros l1 l2 H. unfold graph_unknowns.
    assert (G : mapM (fun x => sym_eqb r x (-1)%Z) l1 = Ok (map (fun x => (x =? -1)%Z) l2)).
    { induction H as [|a b l1 l2 [_ [_ Hab]] _ IH]; [reflexivity|]. cbn [mapM map]. rewrite Hab. cbn [bind]. rewrite IH. reflexivity. }
    rewrite G. cbn [bind]. f_equal. clear. induction l2 as [|b l IH]; [reflexivity|]. cbn. destruct (b =? -1)%Z; cbn; congruence.
  Qed.
  Lemma index_Q : forall l1 l2, Forall2 Q l1 l2 -> sym_index r (-1) l1 = of_option ValueError (index_of Z.eqb (-1)%Z l2).
  Proof.
    intros l1 l2 H. induction H as [|a b l1 l2 [_ [_ Hab]] _ IH]; [reflexivity|]. cbn [sym_index index_of]. rewrite Hab. cbn [bind].
    rewrite (Z.eqb_sym (-1) b). destruct (b =? -1)%Z; [reflexivity|]. rewrite IH. destruct (index_of Z.eqb (-1)%Z l2); reflexivity.
  Qed.
  Lemma Forall2_Q : forall l1 l2, Forall2 Q l1 l2 -> Forall2 ev l1 l2.
  Proof. intros l1 l2 H. induction H as [|a b l m [H1 _] _ IH]; constructor; auto. Qed.
  Lemma Forall2_removelast : forall {X Y} (R : X -> Y -> Prop) l1 l2, Forall2 R l1 l2 -> Forall2 R (removelast l1) (removelast l2).
  Proof.
    intros X Y R l1 l2 H. induction H as [|a b l1 l2 Hab H IH]; [constructor|]. cbn [removelast].
    destruct H; [constructor|]. constructor; [exact Hab|exact IH].
  Qed.

  Lemma positions_sim : forall m1 m2 l1 l2, ev m1 m2 -> Forall2 Q l1 l2 ->
    rsim (Forall2 ev) (graph_positions r m1 l1 (length (filter (fun x => (x =? -1)%Z) l2))) (split_positions m2 l2).
  Proof.
    intros m1 m2 l1 l2 Hm H. unfold graph_positions, split_positions. rewrite (Forall2_len H).
    assert (Hi : Forall2 ev (repeat (SInt 0) (length l2) ++ [m1]) (repeat 0%Z (length l2) ++ [m2])).
    { apply Forall2_app; [|constructor; [exact Hm|constructor]]. clear. induction (length l2); constructor; [reflexivity|assumption]. }
    pose proof (Forall2_Q _ _ H) as He. destruct (_ =? 0).
    - apply (rsim_foldM (fun a b => fst a = fst b /\ ev (snd a) (snd b))); [|  |exact Hi].
      + apply enumerate_sim, Forall2_removelast. exact He.
      + intros s1 s2 [i x] [j y] Hs [Hij Hxy]. cbn [fst snd] in Hij, Hxy. subst j.
        apply (rsim_bind ev); [apply rsim_list_get; exact Hs|]. intros a b Hab.
        destruct (sym_lift_sim e Z.add a x b y Hab Hxy) as (c & Ec & Hc). unfold sym_add. rewrite Ec. cbn [bind]. apply rsim_list_upd; assumption.
    - rewrite (index_Q _ _ H). apply (rsim_bind eq); [apply rsim_same|]. intros u ? <-.
      apply (rsim_bind (Forall2 ev)).
      + apply (rsim_foldM eq); [apply Forall2_same| |exact Hi]. intros s1 s2 i ? Hs <-.
        apply (rsim_bind ev); [apply rsim_list_get; exact Hs|]. intros a b Hab.
        apply (rsim_bind ev); [apply rsim_list_get; exact He|]. intros x y Hxy.
        destruct (sym_lift_sim e Z.add a x b y Hab Hxy) as (c & Ec & Hc). unfold sym_add. rewrite Ec. cbn [bind]. apply rsim_list_upd; assumption.
      + intros s1 s2 Hs. apply (rsim_foldM eq); [apply Forall2_same| |exact Hs]. clear s1 s2 Hs. intros s1 s2 i ? Hs <-.
        apply (rsim_bind ev); [apply rsim_list_get; exact Hs|]. intros a b Hab.
        apply (rsim_bind ev); [apply rsim_list_get; exact He|]. intros x y Hxy.
        destruct (sym_lift_sim e Z.sub a x b y Hab Hxy) as (c & Ec & Hc). unfold sym_sub. rewrite Ec. cbn [bind]. apply rsim_list_upd; assumption.
  Qed.

  Lemma graph_unpack_agrees : forall n t ps1 ps2 p ts, @computes E A e n t ->
    Forall2 (Forall2 ev) ps1 ps2 -> Forall (Forall (comparable (rt_framework r) e)) ps1 ->
    unpack r t ps2 p = Ok ts -> exists ns, graph_unpack r n ps1 p = Ok ns /\ Forall2 (computes e) ns ts.
  Proof.
    intros n t ps1 ps2 p ts Hnt Hps Hc Hu. unfold unpack in Hu. rewrite (eager_backend r Hf) in Hu.
    assert (HQ : Forall2 (Forall2 Q) ps1 ps2).
    { clear - Hps Hc. induction Hps as [|p1 p2 ps1 ps2 Hp _ IH]; [constructor|]. inversion_clear Hc as [|? ? Hc1 Hc2]. constructor; [|auto].
      clear - Hp Hc1. induction Hp as [|a b l m Hab _ IH]; [constructor|]. inversion_clear Hc1. constructor; [|auto]. apply comparable_Q; assumption. }
    change (exists ns, graph_unpack r n ps1 p = Ok ns /\ Forall2 (computes e) ns ts). revert ts Hu.
    change (rsim (Forall2 (computes e)) (graph_unpack r n ps1 p)
      (unpack_with (rt_unicode r) int_shape (t_reshape (rt_lib r)) (@t_slice A) t ps2 p)).
    unfold graph_unpack, unpack_with, unpack_given.
    apply (rsim_bind eq); [apply rsim_same|]. intros [[nb na] mn] ? <-.
    cbn [b_shape b_slice b_reshape the_graph_backend graph_backend].
    pose proof (computes_shape e (rt_framework r) n t Hnt) as Hs. rewrite (Forall2_len Hs).
    set (s1 := node_shape (rt_framework r) n) in *. set (s2 := int_shape t) in *.
    apply (rsim_bind eq); [apply rsim_same|]. intros _ _ _.
    destruct (lengths_Q _ _ HQ) as (l1 & -> & Hl). cbn [bind]. rewrite (unknowns_Q _ _ Hl). cbn [bind].
    apply (rsim_bind eq); [apply rsim_same|]. intros _ _ _.
    apply (rsim_bind ev); [apply rsim_list_get; exact Hs|]. intros m1 m2 Hm.
    apply (rsim_bind (Forall2 ev)); [apply positions_sim; assumption|]. intros sp1 sp2 Hsp.
    match goal with |- rsim _ (match ?a with _ => _ end) (match ?b with _ => _ end) => assert (G : rsim (Forall2 (computes e)) a b) end.
    { eapply rsim_mapM; [apply enumerate_sim; exact Hps|]. intros [i q1] [j q2] [Hij Hq]. cbn [fst snd] in Hij, Hq. subst j.
      apply (rsim_bind ev); [apply rsim_list_get; exact Hsp|]. intros a1 a2 Ha.
      apply (rsim_bind ev); [apply rsim_list_get; exact Hsp|]. intros b1 b2 Hb.
      apply (rsim_bind (computes e)); [apply slice_sim; assumption|]. intros n1 t1 H1.
      apply computes_reshape; [exact H1|]. apply Forall2_app; [apply Forall2_firstn; exact Hs|].
      apply Forall2_app; [exact Hq|apply Forall2_skipn; exact Hs]. }
    intros ts Ets. match type of Ets with match ?b with _ => _ end = _ => destruct b as [ts'|] eqn:Eb; [|discriminate] end.
    injection Ets as <-. destruct (G _ eq_refl) as (ns & -> & Hns). eauto.
  Qed.

  Lemma graph_directions_agrees : forall n t ts, @computes E A e n t -> enumerate_directions int_ops (rt_backend r) t = Ok ts ->
    exists ns, graph_directions r n = Ok ns /\ Forall2 (computes e) ns ts.
  Proof.
    intros n t ts Hnt. revert ts. rewrite (eager_backend r Hf).
    change (rsim (Forall2 (computes e)) (graph_directions r n)
      (enumerate_directions int_ops (make_backend (rt_lib r) (rt_isf r) (rt_num r) (joint_reduce (rt_red r)) tile_add_axes) t)).
    unfold graph_directions, enumerate_directions. cbn [b_shape b_arange b_reshape the_graph_backend graph_backend make_backend d_of_Z sym_ops int_ops].
    pose proof (computes_shape e (rt_framework r) n t Hnt) as Hs. rewrite (Forall2_len Hs).
    eapply rsim_mapM; [apply enumerate_sim; exact Hs|]. intros [i d] [j z] [Hij Hd]. cbn [fst snd] in Hij, Hd. subst j.
    apply (rsim_bind (Forall2 ev)).
    { apply rsim_list_upd; [|exact Hd]. clear. induction (length (int_shape t)); constructor; [reflexivity|assumption]. }
    intros q1 q2 Hq. apply (rsim_bind (computes e)); [apply arange_sim; exact Hd|]. intros n1 t1 H1. apply computes_reshape; assumption.
  Qed.
End Functions.
