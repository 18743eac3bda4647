(** * Facts about arrays in memory: the values of the results *)
From Verif Require Import Py Tensor ListFacts TensorFacts SpecSem SpecElements ElementFacts Parsing Recipe Ops Backends Api Packing SymFacts Strides SpecStrides StrideFacts.

Lemma resolve_prod lib size s s' : resolve_shape lib size s = Ok s' -> prodn s' = size.
Proof.
  unfold resolve_shape. destruct (all_nonneg s).
  - destruct (prodn (to_nats s) =? size) eqn:E; [|discriminate]. intros H. injection H as <-. apply Nat.eqb_eq, E.
  - destruct (_ && _) eqn:E; [|discriminate]. apply andb_prop in E as [E1 _]. apply Nat.eqb_eq in E1.
    set (p := prodn (to_nats (filter (fun d => negb (is_infer lib d)) s))). destruct (p =? 0) eqn:E0; [discriminate|]. destruct (size mod p =? 0) eqn:Em; [|discriminate].
    intros H. injection H as <-. apply Nat.eqb_eq in Em. apply Nat.eqb_neq in E0.
    assert (G : forall q l, prodn (map (fun d => if is_infer lib d then q else Z.to_nat d) l) =
      Nat.pow q (length (filter (is_infer lib) l)) * prodn (to_nats (filter (fun d => negb (is_infer lib d)) l))).
    { intros q l. induction l as [|d l IH]; [reflexivity|]. cbn [map filter]. rewrite prodn_cons, IH. unfold to_nats. destruct (is_infer lib d); cbn [negb length map Nat.pow].
      - rewrite Nat.mul_assoc. reflexivity.
      - rewrite prodn_cons, !Nat.mul_assoc, (Nat.mul_comm (Z.to_nat d)). reflexivity. }
    rewrite G, E1. fold p. cbn [Nat.pow]. pose proof (Nat.div_mod size p E0). lia.
Qed.
Lemma tabulate_wf {A} s (f : list nat -> result A) t : tabulate s f = Ok t -> wf t.
Proof. intros H. apply tabulate_Ok in H. apply H. Qed.
Lemma t_reduce_wf {A} (red : list A -> result A) t axes t' : t_reduce red t axes = Ok t' -> wf t'.
Proof. unfold t_reduce. destruct (_ && _); [apply tabulate_wf|discriminate]. Qed.
Lemma foldM_inv {X Y} (P : X -> Prop) (f : X -> Y -> result X) l : (forall x y x', P x -> f x y = Ok x' -> P x') -> forall x x', P x -> foldM f l x = Ok x' -> P x'.
Proof.
  intros H. induction l as [|y l IH]; intros x x' Hx E; cbn [foldM] in E; [injection E as <-; exact Hx|]. apply bind_Ok in E as [x1 [E1 E]]. eapply IH; [eapply H; eauto|exact E].
Qed.
Lemma reduce_wf {A} (r : runtime A) t op axes t' : wf t -> b_reduce (rt_backend r) t op axes = Ok t' -> wf t'.
Proof.
  intros Hw. assert (S : sequential_reduce (rt_red r) t op axes = Ok t' -> wf t').
  { unfold sequential_reduce. apply (foldM_inv wf); [|exact Hw]. intros x y x' _. apply t_reduce_wf. }
  unfold rt_backend. destruct (rt_framework r); cbn [backend_of make_backend b_reduce]; try apply t_reduce_wf; try exact S.
  - unfold torch_reduce. destruct (str_mem op _); [apply t_reduce_wf|]. destruct (str_mem op _); [exact S|discriminate].
  - unfold oneflow_reduce. apply (foldM_inv wf); [|exact Hw]. intros x y x' _. destruct (str_mem op reductions); [apply t_reduce_wf|discriminate].
  - unfold paddle_reduce, paddle_own_reduce. destruct (length axes =? length (shp t)) eqn:E.
    + intros H. apply bind_Ok in H as [u [H1 H]]. apply bind_Ok in H1 as [t1 [H1 H2]]. injection H2 as <-. cbn [squeeze0 shp dat] in H. injection H as <-.
      pose proof (t_reduce_wf _ _ _ _ H1) as W. unfold wf in *. cbn [shp dat]. rewrite W. unfold joint_reduce, t_reduce in H1. destruct (_ && _) eqn:Ea; [|discriminate]. apply tabulate_Ok in H1 as [_ [-> _]].
      apply andb_prop in Ea as [Ea En]. apply Nat.eqb_eq in E. rewrite forallb_forall in Ea. apply nat_nodupb_NoDup in En.
      assert (Hall : forall k, In k (seq 0 (length (shp t))) -> nat_mem k axes = true).
      { intros k Hk. apply existsb_exists. exists k. split; [|apply Nat.eqb_refl]. eapply Permutation_in; [|exact Hk]. apply Permutation_sym, NoDup_Permutation_bis; [exact En|rewrite seq_length; lia|].
        intros a Ha. apply in_seq. specialize (Ea a Ha). apply Nat.ltb_lt in Ea. lia. }
      clear -Hall. assert (G : forall l (s : list nat), (forall k, In k l -> nat_mem k axes = true) -> prodn (select false (map (fun k => nat_mem k axes) l) s) = 1).
      { induction l as [|k l IH]; intros [|d s] H; try reflexivity. cbn [map select]. rewrite (H k (or_introl eq_refl)). cbn. apply IH. intros; apply H; right; assumption. }
      apply G, Hall.
    + intros H. apply bind_Ok in H as [t1 [H1 H]]. injection H as <-. eapply t_reduce_wf, H1.
  - unfold torch_jit_reduce. destruct (str_mem op _); [apply t_reduce_wf|]. destruct (str_eqb op _); [exact S|discriminate].
Qed.
Lemma stack_wf {A} (ts : list (tensor A)) t : Forall wf ts -> t_stack ts = Ok t -> wf t.
Proof.
  intros Hw H. destruct ts as [|t0 ts]; [discriminate|]. unfold t_stack in H. destruct (forallb _ _) eqn:E; [|discriminate]. injection H as <-. unfold wf. cbn [shp dat]. rewrite prodn_cons.
  rewrite forallb_forall in E. assert (E' : forall t, In t (t0 :: ts) -> shp t = shp t0).
  { intros t Ht. specialize (E t Ht). unfold shape_eqb in E. destruct (list_eq_dec Nat.eq_dec (shp t) (shp t0)); [assumption|discriminate]. }
  clear E. change (length (flat_map dat (t0 :: ts)) = length (t0 :: ts) * prodn (shp t0)). revert Hw E'. generalize (t0 :: ts) (shp t0). intros l s Hw E'. induction Hw as [|a l Ha Hw IH]; [reflexivity|]. cbn [flat_map length]. rewrite app_length, Ha, (E' a) by (left; reflexivity).
  rewrite IH by (intros; apply E'; right; assumption). lia.
Qed.
Lemma replace_nth_length {X} k (x : X) l : length (replace_nth k x l) = length l.
Proof.
  unfold replace_nth. rewrite app_length, firstn_length. pose proof (skipn_length k l) as H. destruct (skipn k l); cbn in *; lia.
Qed.
Lemma expand_shape_len s : forall r s', expand_shape s r = Ok s' -> length s' = length s.
Proof.
  induction s as [|d s IH]; intros [|z r] s' H; try discriminate; [injection H as <-; reflexivity|]. cbn [expand_shape] in H. apply bind_Ok in H as [n [_ H]]. apply bind_Ok in H as [ns [H1 H]].
  injection H as <-. cbn. f_equal. eapply IH, H1.
Qed.
Lemma map2_len {X Y C} (f : X -> Y -> C) l : forall m, length m = length l -> length (map2 f l m) = length l.
Proof. induction l as [|a l IH]; intros [|b m] H; try discriminate; cbn in *; [reflexivity|]. f_equal. apply IH. lia. Qed.

Section Values.
  Context {A : Type} (mem : memory A) (nocopy : list nat -> list Z -> list nat -> option (list Z)) (Hnc : nocopy_ok nocopy) (r : runtime A).
  Notation shows := (shows mem).
  Notation B := (array_backend mem nocopy r).

  Lemma transpose_shows v t axes : shows v t -> both shows (v_transpose v axes) (t_transpose t axes).
  Proof.
    intros H. apply (view_shows mem v t _ (fun X x => t_transpose x axes)); [intros; apply transpose_alike; assumption| | |exact H]; destruct H as [Hl _].
    - intros v' E. pose proof (transpose_places _ _ _ Hl E) as P. unfold v_transpose in E. destruct (is_permutation _ _); [|discriminate]. injection E as <-. cbn [a_buf a_str a_shp]. rewrite !map_length. auto.
    - unfold v_transpose, t_transpose. cbn [shp places]. destruct (is_permutation _ _); [discriminate|intros ex E; injection E as <-; reflexivity].
  Qed.
  Lemma expand_dims_shows v t p : shows v t -> both shows (v_expand_dims v p) (t_expand_dims t p).
  Proof.
    intros H. apply (view_shows mem v t _ (fun X x => t_expand_dims x p)); [intros; apply expand_dims_alike; assumption| | |exact H]; destruct H as [Hl _].
    - intros v' E. pose proof (expand_dims_places _ _ _ Hl E) as P. unfold v_expand_dims in E. destruct (_ <=? _); [|discriminate]. injection E as <-. cbn [a_buf a_str a_shp].
      split; [reflexivity|]. split; [|exact P]. unfold insert_at. rewrite !app_length. cbn [length]. rewrite !firstn_length, !skipn_length. lia.
    - unfold v_expand_dims, t_expand_dims. cbn [shp places]. destruct (_ <=? _); [discriminate|intros ex E; injection E as <-; reflexivity].
  Qed.
  Lemma expand_shows v t sizes : shows v t -> both shows (v_expand v sizes) (t_expand t sizes).
  Proof.
    intros H. apply (view_shows mem v t _ (fun X x => t_expand x sizes)); [intros; apply expand_alike; assumption| | |exact H]; destruct H as [Hl _].
    - intros v' E. pose proof (expand_places _ _ _ Hl E) as P. unfold v_expand in E. apply bind_Ok in E as [s' [Es E]]. injection E as <-. cbn [a_buf a_str a_shp].
      split; [reflexivity|]. split; [|exact P]. rewrite map2_len by exact Hl. symmetry. eapply expand_shape_len, Es.
    - intros ex E. unfold v_expand, t_expand in *. cbn [shp places]. apply bind_Err in E as [E|[s' [_ E]]]; [rewrite E; reflexivity|discriminate].
  Qed.
  Lemma slice_shows v t axis lo hi : shows v t -> both shows (v_slice v axis lo hi) (t_slice t axis lo hi).
  Proof.
    intros H. apply (view_shows mem v t _ (fun X x => t_slice x axis lo hi)); [intros; apply slice_alike; assumption| | |exact H]; destruct H as [Hl _].
    - intros v' E. pose proof (slice_places _ _ _ _ _ Hl E) as P. unfold v_slice in E. destruct (_ <? _); [|discriminate]. injection E as <-. cbn [a_buf a_str a_shp].
      split; [reflexivity|]. split; [|exact P]. rewrite replace_nth_length. exact Hl.
    - unfold v_slice, t_slice. cbn [shp places]. destruct (_ <? _); [discriminate|intros ex E; injection E as <-; reflexivity].
  Qed.
  Lemma reshape_shows v t s : shows v t -> both shows (v_reshape mem nocopy (rt_lib r) v s) (t_reshape (rt_lib r) t s).
  Proof.
    intros H. pose proof (shows_wf _ _ _ H) as [Hw Es]. unfold v_reshape, t_reshape. rewrite Es. destruct (resolve_shape (rt_lib r) (prodn (a_shp v)) s) as [s'|] eqn:E; [|reflexivity]. cbn [bind].
    apply resolve_prod in E. destruct (nocopy (a_shp v) (a_str v) s') as [st|] eqn:En.
    - destruct H as [Hl [_ F]]. apply (nc_sound _ Hnc _ _ _ _ Hl E) in En as [L P]. split; [exact L|]. split; [reflexivity|]. unfold places. cbn [dat a_off a_shp a_str a_buf]. rewrite P. exact F.
    - rewrite (shows_read _ _ _ H). cbn [bind both]. apply (fresh_shows mem (mkT s' (dat t))). unfold wf. cbn [shp dat]. rewrite Hw, Es. symmetry. exact E.
  Qed.
  Lemma compute_shows m : (forall t, m = Ok t -> wf t) -> both shows (compute m) m.
  Proof. intros H. destruct m as [t|ex]; [|reflexivity]. cbn. apply fresh_shows, H, eq_refl. Qed.
  Lemma tile_shows v t reps : shows v t -> both shows (v_tile mem v reps) (t_tile t reps).
  Proof.
    intros H. unfold v_tile. rewrite (shows_read _ _ _ H). cbn [bind]. apply compute_shows. unfold t_tile. intros t'. destruct (_ && _); [apply tabulate_wf|discriminate].
  Qed.
  Lemma read_all vs ts : Forall2 shows vs ts -> mapM (read mem) vs = Ok ts /\ Forall wf ts.
  Proof.
    intros F. induction F as [|v t vs ts H F [IH1 IH2]]; [split; [reflexivity|constructor]|]. cbn [mapM]. rewrite (shows_read _ _ _ H), IH1. split; [reflexivity|].
    constructor; [apply (shows_wf _ _ _ H)|exact IH2].
  Qed.
  Lemma stack_shows vs ts : Forall2 shows vs ts -> both shows (v_stack mem vs) (t_stack ts).
  Proof. intros F. apply read_all in F as [E W]. unfold v_stack. rewrite E. cbn [bind]. apply compute_shows. intros t. apply stack_wf, W. Qed.
  Lemma concat_shows vs ts k : Forall2 shows vs ts -> both shows (v_concat mem vs k) (t_concat ts k).
  Proof.
    intros F. apply read_all in F as [E W]. unfold v_concat. rewrite E. cbn [bind]. apply compute_shows. intros t. destruct ts as [|t0 ts]; [discriminate|]. unfold t_concat.
    destruct (_ && _); [apply tabulate_wf|discriminate].
  Qed.
  Lemma reduce_shows v t op axes : shows v t -> both shows (b_reduce B v op axes) (b_reduce (rt_backend r) t op axes).
  Proof. intros H. cbn [array_backend b_reduce]. rewrite (shows_read _ _ _ H). cbn [bind]. apply compute_shows. intros t'. apply reduce_wf, (shows_wf _ _ _ H). Qed.
  Definition pair_shows (p : array A * list Z) (q : tensor A * list Z) : Prop := shows (fst p) (fst q) /\ snd p = snd q.
  Lemma loop_shows fill v t n l : shows v t -> both pair_shows (v_add_loop fill v n l)
    (foldM (fun '(x, repeats) '(p, l) => let* x := t_expand_dims x p in let* repeats := list_upd repeats p l in Ok (x, repeats)) l (t, repeat fill n)).
  Proof.
    intros H. unfold v_add_loop. apply both_foldM; [|split; [exact H|reflexivity]]. intros [x s] [x' s'] [p k] [Hx Hs]. cbn in Hx, Hs. subst s'.
    apply (both_bind shows); [apply expand_dims_shows, Hx|]. intros y y' Hy. apply both_bind_same. intros s1. split; [exact Hy|reflexivity].
  Qed.
  Lemma add_axes_shows v t n l : shows v t -> both shows (b_add_axes B v n l) (b_add_axes (rt_backend r) t n l).
  Proof.
    intros H. assert (T : both shows (v_tile_add_axes mem v n l) (tile_add_axes t n l)).
    { unfold v_tile_add_axes, tile_add_axes. apply (both_bind pair_shows); [apply loop_shows, H|]. intros [x s] [x' s'] [Hx Hs]. cbn in Hx, Hs. subst s'. apply tile_shows, Hx. }
    assert (E : both shows (v_expand_add_axes v n l) (expand_add_axes t n l)).
    { unfold v_expand_add_axes, expand_add_axes. apply (both_bind pair_shows); [apply loop_shows, H|]. intros [x s] [x' s'] [Hx Hs]. cbn in Hx, Hs. subst s'. apply expand_shows, Hx. }
    unfold rt_backend. cbn [array_backend b_add_axes]. destruct (rt_framework r); cbn [expands backend_of make_backend b_add_axes]; assumption.
  Qed.
  Lemma float_shows v t : shows v t -> b_is_float B v = b_is_float (rt_backend r) t.
  Proof. intros H. rewrite backend_isf. cbn [array_backend b_is_float]. rewrite (shows_read _ _ _ H). reflexivity. Qed.
  Lemma shape_shows v t : shows v t -> b_shape B v = b_shape (rt_backend r) t.
  Proof. intros H. rewrite backend_shape. unfold int_shape. rewrite (proj2 (shows_wf _ _ _ H)). reflexivity. Qed.

  Lemma reduce_values x x' pattern red red' sizes : inputs_show mem x x' -> reds_show mem red red' ->
    both shows (v_reduce mem nocopy r x pattern red sizes) (reduce r x' pattern red' sizes).
  Proof.
    intros Hx Hr. unfold v_reduce, reduce, api_reduce. apply both_bind_same. intros _. apply (both_bind shows).
    { destruct x as [v|vs], x' as [t|ts]; try contradiction; [exact Hx|]. cbn in Hx |- *. destruct Hx as [|v t vs ts Hv F]; [reflexivity|]. rewrite backend_stack. apply (stack_shows (v :: vs)). constructor; assumption. }
    intros v t Ht. rewrite (shape_shows _ _ Ht). assert (Eo : op_of red = op_of red') by (destruct red, red'; cbn in Hr; try contradiction; subst; reflexivity).
    rewrite Eo. apply both_bind_same. intros rc. unfold apply_recipe. rewrite (shape_shows _ _ Ht). apply both_bind_same. intros k. unfold apply_cooked.
    apply (both_bind shows); [destruct (k_init k); [rewrite backend_reshape; apply reshape_shows, Ht|exact Ht]|]. intros v1 t1 H1.
    apply (both_bind shows); [destruct (k_reorder k); [rewrite backend_transpose; apply transpose_shows, H1|exact H1]|]. intros v2 t2 H2.
    apply (both_bind shows).
    { destruct (k_reduced k) as [|a l]; [exact H2|]. destruct red as [s|f], red' as [s'|g]; cbn in Hr; try contradiction; [subst s'|apply Hr, H2]. cbn [reduce_axes].
      rewrite (float_shows _ _ H2). apply both_bind_same. intros _. apply both_bind_same. intros _. apply reduce_shows, H2. }
    intros v3 t3 H3. apply (both_bind shows); [destruct (k_added k); [exact H3|apply add_axes_shows, H3]|]. intros v4 t4 H4.
    destruct (k_final k); [rewrite backend_reshape; apply reshape_shows, H4|exact H4].
  Qed.
  Lemma pack_values vs ts pattern : Forall2 shows vs ts -> both (packed_shows mem) (v_pack mem nocopy r vs pattern) (pack r ts pattern).
  Proof.
    intros F. unfold v_pack, pack, pack_with, pack_given. apply both_bind_same. intros [[nb na] mn].
    apply (both_bind (fun _ _ => True)); [destruct F; [reflexivity|exact I]|]. intros _ _ _.
    apply (both_bind (fun p q => Forall2 shows (fst p) (fst q) /\ snd p = snd q)).
    - apply (both_foldM2 (fun p q => Forall2 shows (fst p) (fst q) /\ snd p = snd q) shows); [exact F| |split; [constructor|reflexivity]].
      intros [l s] [l' s'] v t [Hl Hs] Ht. cbn in Hl, Hs. subst s'. rewrite (shape_shows _ _ Ht). apply both_bind_same. intros _.
      apply (both_bind shows); [rewrite backend_reshape; apply reshape_shows, Ht|]. intros u u' Hu. split; [|reflexivity]. cbn. apply Forall2_app; [exact Hl|]. constructor; [exact Hu|constructor].
    - intros [l s] [l' s'] [Hl Hs]. cbn in Hl, Hs. subst s'. apply (both_bind shows); [rewrite backend_concat; apply concat_shows, Hl|]. intros u u' Hu. split; [exact Hu|reflexivity].
  Qed.
  Lemma unpack_values v t s pattern : shows v t -> both (Forall2 shows) (v_unpack mem nocopy r v s pattern) (unpack r t s pattern).
  Proof.
    intros H. unfold v_unpack, unpack, unpack_with, unpack_given. rewrite (shape_shows _ _ H). apply both_bind_same. intros [[nb na] mn].
    apply both_bind_same. intros _. apply both_bind_same. intros _. apply both_bind_same. intros n. apply both_bind_same. intros sp.
    match goal with |- both _ (match ?m with _ => _ end) (match ?m' with _ => _ end) => assert (M : both (Forall2 shows) m m') end.
    { apply both_mapM_same. intros [i es]. apply both_bind_same. intros lo. apply both_bind_same. intros hi.
      apply (both_bind shows); [rewrite backend_slice; apply slice_shows, H|]. intros u u' Hu. rewrite backend_reshape. apply reshape_shows, Hu. }
    revert M. repeat match goal with |- context [match ?m with Ok _ => Ok _ | Err _ => _ end] => destruct m end; cbn; auto.
  Qed.
End Values.
