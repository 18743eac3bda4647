(** * Graphs simulate eager execution *)
From Verif Require Import Py Tensor Parsing Recipe Ops Backends Api ListFacts TensorFacts SymFacts Symbolic.

Lemma sym_dim_sim : forall {E} (e : E), dim_sim (@sym_ops E) (stands_for e).
Proof.
  intros E e. unfold stands_for. constructor.
  - reflexivity.
  - intros [z0|v|] z z' H1 H2; cbn in *; congruence.
  - intros [a|a|] [b|b|] x y; cbn; intros; try congruence.
    + rewrite H0. cbn. congruence.
    + rewrite H. cbn. congruence.
    + rewrite H, H0. reflexivity.
  - intros [a|a|] [b|b|] x y; cbn; intros Ha Hb N0; try congruence; apply Z.eqb_neq in N0.
    + injection Ha as ->. injection Hb as ->. rewrite N0. eexists; split; reflexivity.
    + eexists; split; [reflexivity|]. cbn. rewrite Hb. cbn. rewrite N0. congruence.
    + eexists; split; [reflexivity|]. cbn. rewrite Ha. cbn. injection Hb as ->. rewrite N0. congruence.
    + eexists; split; [reflexivity|]. cbn. rewrite Ha, Hb. cbn. rewrite N0. congruence.
Qed.

Section Graph.
  Context {E A : Type} (e : E) (lib : bool) (red : pystr -> list A -> result A) (isf : tensor A -> bool) (num : nat -> A) (fl : bool).

  Let ok (s : option Z) (d : Z) : Prop := forall z, s = Some z -> z = d.
  Let R (n : @node E A) (t : tensor A) : Prop := computes e n t /\ (fl = true -> n_float n = true).

  Lemma run_dims : forall s1 s2, Forall2 (stands_for e) s1 s2 -> mapM (fun d => s_run d e) s1 = Ok s2.
  Proof.
    intros s1 s2 H. induction H as [|a b s1 s2 Hab _ IH]; [reflexivity|]. cbn [mapM]. rewrite Hab. cbn [bind]. rewrite IH. reflexivity.
  Qed.
  Lemma static_len : forall (n : @node E A) (t : tensor A), computes e n t -> length (n_static n) = length (shp t).
  Proof. intros n t [_ H]. rewrite (Forall2_len H). unfold int_shape. apply map_length. Qed.

  Lemma node_shape_sim : forall f n t, R n t -> Forall2 (stands_for e) (node_shape f n) (int_shape t).
  Proof.
    intros f n t [[Hr Hs] _]. unfold node_shape, enumerate.
    assert (G : forall ss ds k, Forall2 ok ss ds -> (forall j, nth_error (int_shape t) (k + j) = nth_error ds j) ->
      Forall2 (stands_for e) (map (fun '(i, s) => let dyn := SSym (fun e => let* t := n_run n e in list_get (int_shape t) i) in
         match s with Some z => if reports f z then SInt z else dyn | None => dyn end) (enumerate_from k ss)) ds).
    { intros ss ds k H. revert k. induction H as [|s d ss ds Hsd _ IH]; intros k Hk; [constructor|]. cbn [enumerate_from map].
      assert (Hd : stands_for e (SSym (fun e => let* t := n_run n e in list_get (int_shape t) k)) d).
      { unfold stands_for. cbn. rewrite Hr. cbn. unfold list_get. specialize (Hk 0). rewrite Nat.add_0_r in Hk. rewrite Hk. reflexivity. }
      constructor.
      - destruct s as [z|]; [|exact Hd]. cbn zeta. destruct (reports f z); [|exact Hd]. unfold stands_for. cbn. rewrite (Hsd z eq_refl). reflexivity.
      - apply IH. intros j. replace (S k + j) with (k + S j) by lia. apply (Hk (S j)). }
    apply G; [exact Hs|]. reflexivity.
  Qed.

  Lemma tabulate_shp : forall s (f : list nat -> result A) t, tabulate s f = Ok t -> shp t = s.
  Proof. intros s f t H. unfold tabulate in H. destruct (mapM f (indices s)); cbn in H; [|discriminate]. injection H as <-. reflexivity. Qed.

  Lemma none_ok : forall {X} (l : list X) ds, length l = length ds -> Forall2 ok (map (fun _ => None) l) ds.
  Proof. intros X l. induction l as [|x l IH]; intros [|d ds] H; try discriminate; constructor; [intros z; discriminate|apply IH; cbn in H; congruence]. Qed.

  Lemma reshape_sim : forall n t s1 s2, R n t -> Forall2 (stands_for e) s1 s2 -> rsim R (graph_reshape lib n s1) (t_reshape lib t s2).
  Proof.
    intros n t s1 s2 [[Hr Hs] Hf] H12 t' Ht. eexists. split; [reflexivity|]. split; [split|exact Hf].
    - cbn. unfold run1. rewrite Hr. cbn. rewrite (run_dims _ _ H12). exact Ht.
    - cbn [n_static]. unfold t_reshape in Ht. destruct (resolve_shape lib (prodn (shp t)) s2) as [s'|] eqn:Er; cbn in Ht; [|discriminate].
      injection Ht as <-. unfold int_shape. cbn [shp].
      assert (G : Forall2 (fun z d => (0 <= z)%Z -> d = Z.to_nat z) s2 s').
      { unfold resolve_shape in Er. destruct (all_nonneg s2).
        - destruct (_ =? _); [|discriminate]. injection Er as <-. clear. unfold to_nats. induction s2; constructor; auto.
        - destruct (_ && _); [|discriminate]. destruct (_ =? 0); [discriminate|]. destruct (_ =? 0) in Er; [|discriminate]. injection Er as <-.
          set (q := prodn (shp t) / _). clearbody q. clear. induction s2 as [|z l IH]; constructor; [|exact IH].
          intros Hz. destruct (is_infer lib z) eqn:Ei; [|reflexivity]. unfold is_infer in Ei. destruct lib; lia. }
      clear - G H12. revert s' G. induction H12 as [|d z s1 s2 Hdz _ IH]; intros s' G; inversion G; subst; constructor; [|apply IH; assumption].
      intros z0 Hz0. destruct d; try discriminate. cbn in Hz0. destruct (z1 <? 0)%Z eqn:En; [discriminate|]. injection Hz0 as <-.
      injection Hdz as <-. rewrite H1 by lia. lia.
  Qed.

  Lemma transpose_sim : forall n t p, R n t -> rsim R (graph_transpose n p) (t_transpose t p).
  Proof.
    intros n t p [[Hr Hs] Hf] t' Ht. eexists. split; [reflexivity|]. split; [split|exact Hf].
    - cbn. unfold run1. rewrite Hr. exact Ht.
    - cbn [n_static]. unfold t_transpose in Ht. destruct (is_permutation p (length (shp t))) eqn:Ep; [|discriminate].
      apply tabulate_shp in Ht. unfold int_shape. rewrite Ht.
      unfold is_permutation in Ep. apply andb_prop in Ep as [Ep _]. apply andb_prop in Ep as [_ Ep]. rewrite forallb_forall in Ep.
      clear Ht. induction p as [|a p IH]; constructor; [|apply IH; intros; apply Ep; right; assumption].
      assert (La : a < length (shp t)) by (apply Nat.ltb_lt, Ep; left; reflexivity).
      intros z Hz. pose proof Hs as Hs'. apply Forall2_len in Hs' as L. unfold int_shape in *. rewrite map_length in L.
      clear - Hs La Hz. revert a La Hz. remember (map Z.of_nat (shp t)) as ds eqn:Ed. revert Ed. generalize (shp t).
      induction Hs as [|s d ss ds Hsd _ IH]; intros l Ed [|a] La Hz; destruct l as [|x l]; cbn in *; try discriminate; try lia.
      + injection Ed as -> ->. subst s. apply Hsd. reflexivity.
      + injection Ed as -> Ed. apply (IH l Ed a); [lia|exact Hz].
  Qed.

  Lemma reduce_sim : forall n t s axes, R n t -> rsim R (graph_reduce red n s axes) (joint_reduce red t s axes).
  Proof.
    intros n t s axes [[Hr Hs] Hf] t' Ht. eexists. split; [reflexivity|]. split; [split|exact Hf].
    - cbn. unfold run1. rewrite Hr. exact Ht.
    - cbn [n_static]. unfold joint_reduce, t_reduce in Ht. destruct (_ && _); [|discriminate]. apply tabulate_shp in Ht. unfold int_shape. rewrite Ht.
      clear Ht. unfold int_shape in Hs. unfold enumerate. generalize 0 as k.
      remember (map Z.of_nat (shp t)) as ds eqn:Ed. revert Ed. generalize (shp t). clear Hr.
      induction Hs as [|x d ss ds Hsd _ IH]; intros [|y l] Ed k; try discriminate; [constructor|].
      injection Ed as -> Ed. cbn [enumerate_from filter length seq map select].
      change (existsb (Nat.eqb k) axes) with (nat_mem k axes). destruct (nat_mem k axes); cbn [negb Bool.eqb map]; [apply IH; exact Ed|].
      constructor; [exact Hsd|apply IH; exact Ed].
  Qed.

  Lemma expand_dims_sim : forall n t p, R n t -> rsim R (graph_expand_dims n p) (t_expand_dims t p).
  Proof.
    intros n t p [[Hr Hs] Hf] t' Ht. eexists. split; [reflexivity|]. split; [split|exact Hf].
    - cbn. unfold run1. rewrite Hr. exact Ht.
    - cbn [n_static]. unfold t_expand_dims in Ht. destruct (_ <=? _); [|discriminate]. injection Ht as <-. unfold int_shape, insert_at in *. cbn [shp].
      rewrite map_app. cbn [map]. rewrite <- firstn_map, <- skipn_map. apply Forall2_app; [apply Forall2_firstn; exact Hs|].
      constructor; [intros z [= <-]; reflexivity|apply Forall2_skipn; exact Hs].
  Qed.

  Lemma map2_len : forall {X Y Z} (f : X -> Y -> Z) l m, length l = length m -> length (map2 f l m) = length l.
  Proof. intros X Y Z f l. induction l as [|x l IH]; intros [|y m] H; try discriminate; cbn; [reflexivity|]. f_equal. apply IH. cbn in H. congruence. Qed.

  Lemma tile_sim : forall n t r1 r2, R n t -> Forall2 (stands_for e) r1 r2 -> rsim R (graph_tile n r1) (t_tile t r2).
  Proof.
    intros n t r1 r2 [[Hr Hs] Hf] H12 t' Ht. eexists. split; [reflexivity|]. split; [split|exact Hf].
    - cbn. unfold run1. rewrite Hr. cbn. rewrite (run_dims _ _ H12). exact Ht.
    - cbn [n_static]. apply none_ok. unfold t_tile in Ht. destruct (length r2 =? length (shp t)) eqn:El; [|discriminate]. cbn in Ht.
      destruct (all_nonneg r2); [|discriminate]. apply tabulate_shp in Ht. apply Nat.eqb_eq in El.
      rewrite (Forall2_len Hs). unfold int_shape. rewrite !map_length, Ht, map2_len; [reflexivity|]. unfold to_nats. rewrite map_length. congruence.
  Qed.

  Lemma add_axes_sim : forall n t k a1 a2, R n t -> Forall2 (fun a b => fst a = fst b /\ stands_for e (snd a) (snd b)) a1 a2 ->
    rsim R (graph_add_axes n k a1) (tile_add_axes t k a2).
  Proof.
    intros n t k a1 a2 HR Ha. unfold graph_add_axes, tile_add_axes.
    apply (rsim_bind (fun a b => R (fst a) (fst b) /\ Forall2 (stands_for e) (snd a) (snd b))).
    - apply (rsim_foldM _ (fun a b => R (fst a) (fst b) /\ Forall2 (stands_for e) (snd a) (snd b)) _ _ a1 a2 Ha).
      + intros [n1 l1] [t1 l2] [p d] [p' z] [H1 H2] [Hp Hd]. cbn in H1, H2, Hp, Hd. subst p'.
        apply (rsim_bind R); [apply expand_dims_sim; exact H1|]. intros n2 t2 H3.
        apply (rsim_bind (Forall2 (stands_for e))); [apply rsim_list_upd; assumption|]. intros l3 l4 H4. apply rsim_ok. split; assumption.
      + split; [exact HR|]. cbn. clear. induction k; constructor; [reflexivity|assumption].
    - intros [n1 l1] [t1 l2] [H1 H2]. apply tile_sim; assumption.
  Qed.

  Lemma stack_sim : forall ns ts, Forall2 R ns ts -> rsim R (graph_stack ns) (t_stack ts).
  Proof.
    intros ns ts H t' Ht. destruct H as [|n t ns ts Hnt H]; [discriminate|]. eexists. split; [reflexivity|].
    assert (Hall : Forall2 R (n :: ns) (t :: ts)) by (constructor; assumption).
    destruct Hnt as [[Hr Hs] Hf]. split; [split|exact Hf].
    - cbn [n_run]. assert (G : mapM (fun n => n_run n e) (n :: ns) = Ok (t :: ts)).
      { clear - Hall. induction Hall as [|a b l m [[Hab _] _] _ IH]; [reflexivity|]. cbn [mapM]. rewrite Hab. cbn [bind]. rewrite IH. reflexivity. }
      rewrite G. exact Ht.
    - cbn [n_static]. unfold t_stack in Ht. destruct (forallb _ _); [|discriminate]. injection Ht as <-.
      unfold int_shape. cbn [shp map]. constructor; [|exact Hs]. intros z [= <-]. cbn [length]. rewrite (Forall2_len H). reflexivity.
  Qed.

  Lemma graph_sim f : has_graphs f -> backend_sim (graph_backend lib red num f) (backend_of lib red isf num f) (stands_for e) R.
  Proof.
    intros Hf. assert (Eb : backend_of lib red isf num f = backend_of lib red isf num Tensorflow) by (destruct Hf as [->|[->| ->]]; reflexivity).
    rewrite Eb. constructor.
    - apply node_shape_sim.
    - apply reshape_sim.
    - apply transpose_sim.
    - apply reduce_sim.
    - apply add_axes_sim.
    - apply stack_sim.
  Qed.
End Graph.

Lemma graph_reduce_agrees : forall {E A} (r : runtime A) (e : E) x y p s z1 z2 t,
  has_graphs (rt_framework r) -> computes_input e x y -> same_sizes e z1 z2 ->
  (s = lit "mean" -> forall n, In n (nodes x) -> n_float n = true) ->
  reduce r y p (RStr s) z2 = Ok t ->
  exists n, graph_reduce_ r x p (RStr s) z1 = Ok n /\ computes e n t.
Proof.
  intros E A r e x y p s z1 z2 t Hfw Hx Hz Hm H. unfold reduce, rt_backend in H.
  set (fl := str_eqb s (lit "mean")).
  assert (Hfl : fl = true <-> s = lit "mean").
  { unfold fl, str_eqb. destruct (str_eq_dec s (lit "mean")); split; congruence. }
  pose proof (graph_sim e (rt_lib r) (rt_red r) (rt_isf r) (rt_num r) fl (rt_framework r) Hfw) as HB.
  destruct (api_reduce_sim (@sym_ops E) (stands_for e) (sym_dim_sim e) _ _ _ HB (rt_unicode r) (rt_orders r) x y p (RStr s) (RStr s) z1 z2) with (b := t)
    as (n & Hn & [Hc _]); [| | reflexivity | exact Hz | exact H | exists n; split; [exact Hn|exact Hc]].
  - assert (G : forall n t, In n (nodes x) -> computes e n t -> computes e n t /\ (fl = true -> n_float n = true)).
    { intros n t0 Hin Hc. split; [exact Hc|]. intros Et. apply Hm; [apply Hfl; exact Et|exact Hin]. }
    destruct x as [n|ns], y as [t0|ts]; cbn in Hx |- *; try contradiction.
    + apply G; [left; reflexivity|exact Hx].
    + cbn [nodes] in G. clear - G Hx. induction Hx as [|a b l m Hab _ IH]; constructor; [apply G; [left; reflexivity|exact Hab]|].
      apply IH. intros n t0 Hin. apply G. right. exact Hin.
  - cbn. split; [reflexivity|]. intros Es n t0 [_ Hf]. apply Hf, Hfl. exact Es.
Qed.
