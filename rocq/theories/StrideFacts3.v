(** * Facts about arrays in memory: what is shared *)
From Verif Require Import Py Tensor ListFacts TensorFacts SpecSem SpecGrammar SpecPattern SpecOps SpecCalls SpecElements ElementFacts Parsing Recipe Ops Backends Api Packing FrontFacts FrontFacts2 FrontFacts3 ParseFacts RecipeFacts MainFacts3 CallsFacts ApiFacts5 SymFacts Strides SpecStrides StrideFacts StrideFacts2.

Lemma resolve_nats lib n s : prodn s = n -> resolve_shape lib n (map Z.of_nat s) = Ok s.
Proof.
  intros H. unfold resolve_shape. assert (E : all_nonneg (map Z.of_nat s) = true) by (unfold all_nonneg; apply forallb_forall; intros d Hd; apply in_map_iff in Hd as [n' [<- _]]; apply Z.leb_le; lia).
  rewrite E. assert (E' : to_nats (map Z.of_nat s) = s) by (unfold to_nats; rewrite map_map; rewrite <- (map_id s) at 2; apply map_ext; intros; lia). rewrite E', H, Nat.eqb_refl. reflexivity.
Qed.
Lemma resolve_frame lib n b es a s' : resolve_shape lib n (map Z.of_nat b ++ es ++ map Z.of_nat a) = Ok s' -> exists es', s' = b ++ es' ++ a.
Proof.
  assert (G : forall f : Z -> nat, (forall k, f (Z.of_nat k) = k) -> map f (map Z.of_nat b ++ es ++ map Z.of_nat a) = b ++ map f es ++ a).
  { intros f Hf. rewrite !map_app, !map_map. rewrite !(map_ext (fun x => f (Z.of_nat x)) (fun x => x)) by exact Hf. rewrite !map_id. reflexivity. }
  unfold resolve_shape. destruct (all_nonneg _).
  - destruct (_ =? _); [|discriminate]. intros H. injection H as <-. unfold to_nats. rewrite G by (intros; lia). eauto.
  - destruct (_ && _); [|discriminate]. destruct (_ =? 0); [discriminate|]. destruct (_ =? 0); [|discriminate]. intros H. injection H as <-.
    rewrite G; [eauto|]. intros k. unfold is_infer. destruct lib; [rewrite (proj2 (Z.ltb_ge _ _)) by lia|rewrite (proj2 (Z.eqb_neq _ _)) by lia]; lia.
Qed.

Lemma resolve_frame_nil lib n s s' : resolve_shape lib n (map Z.of_nat s) = Ok s' -> s' = s.
Proof.
  intros H. unfold resolve_shape in H. assert (E : all_nonneg (map Z.of_nat s) = true) by (unfold all_nonneg; apply forallb_forall; intros d Hd; apply in_map_iff in Hd as [n' [<- _]]; apply Z.leb_le; lia).
  rewrite E in H. destruct (_ =? _); [|discriminate]. injection H as <-. unfold to_nats. rewrite map_map. rewrite <- (map_id s) at 2. apply map_ext. intros; lia.
Qed.
(** dimensions of length 1 between those of the axes *)
Lemma flat_split {X} (len : X -> nat) gs : flat_groups gs -> exists k parts, gshape len gs = repeat 1 k ++ concat parts /\ map prodn parts = map len (concat gs).
Proof.
  intros F. induction F as [|g gs Hg F (k & parts & E1 & E2)]; [exists 0, []; split; reflexivity|]. cbn [gshape map concat]. fold (gshape len gs). rewrite E1.
  destruct g as [|a [|b g]]; cbn [length] in Hg; [| |lia].
  - exists (S k), parts. split; [reflexivity|exact E2].
  - exists 0, ((len a :: repeat 1 k) :: parts). split.
    + cbn [map repeat app concat]. rewrite prodn_cons. cbn [prodn fold_right]. rewrite Nat.mul_1_r. reflexivity.
    + cbn [map app]. rewrite E2, prodn_cons. f_equal. clear. induction k as [|k IH]; [cbn; lia|]. cbn [repeat]. rewrite prodn_cons, Nat.mul_1_l. exact IH.
Qed.
Lemma nth_place l (f : label -> nat) a : In a l -> nth (place l a) (map f l) 0 = f a.
Proof.
  induction l as [|b l IH]; [intros []|]. intros H. cbn [place map]. unfold label_eqb. destruct (label_eq_dec a b) as [->|Hne]; [reflexivity|]. cbn [nth]. apply IH. destruct H; [congruence|assumption].
Qed.

(** [v] is a view of the buffer [b], and [t] says where its elements are *)
Definition view {A} (b : buffer A) (v : array A) (t : tensor Z) : Prop :=
  a_buf v = b /\ length (a_str v) = length (a_shp v) /\ places v = t.

Section Sharing.
  Context {A : Type} (mem : memory A) (nocopy : list nat -> list Z -> list nat -> option (list Z)) (Hnc : nocopy_ok nocopy) (r : runtime A).
  Notation B := (array_backend mem nocopy r).

  Lemma view_of (b : buffer A) v t m m' : view b v t ->
    (forall v', m = Ok v' -> length (a_str v) = length (a_shp v) -> m' (places v) = Ok (places v')) ->
    (forall v', m = Ok v' -> length (a_str v) = length (a_shp v) -> a_buf v' = a_buf v /\ length (a_str v') = length (a_shp v')) ->
    (forall ex, m = Err ex -> m' (places v) = Err ex) -> both (view b) m (m' t).
  Proof.
    intros (Eb & El & <-) H1 H2 H3. destruct m as [v'|ex].
    - rewrite (H1 v' eq_refl El). destruct (H2 v' eq_refl El) as [E1 E2]. split; [congruence|]. split; [exact E2|reflexivity].
    - rewrite (H3 ex eq_refl). reflexivity.
  Qed.
  Lemma transpose_view (b : buffer A) v t axes : view b v t -> both (view b) (v_transpose v axes) (t_transpose t axes).
  Proof.
    intros H. apply (view_of b v t _ (fun t => t_transpose t axes) H); clear H t.
    - intros v' E Hl. apply transpose_places; assumption.
    - intros v' E Hl. unfold v_transpose in E. destruct (is_permutation _ _); [|discriminate]. injection E as <-. cbn [a_buf a_str a_shp]. rewrite !map_length. auto.
    - unfold v_transpose, t_transpose. cbn [shp places]. destruct (is_permutation _ _); [discriminate|intros ex E; injection E as <-; reflexivity].
  Qed.
  Lemma expand_dims_view (b : buffer A) v t p : view b v t -> both (view b) (v_expand_dims v p) (t_expand_dims t p).
  Proof.
    intros H. apply (view_of b v t _ (fun t => t_expand_dims t p) H); clear H t.
    - intros v' E Hl. apply expand_dims_places; assumption.
    - intros v' E Hl. unfold v_expand_dims in E. destruct (_ <=? _); [|discriminate]. injection E as <-. cbn [a_buf a_str a_shp].
      split; [reflexivity|]. unfold insert_at. rewrite !app_length. cbn [length]. rewrite !firstn_length, !skipn_length. lia.
    - unfold v_expand_dims, t_expand_dims. cbn [shp places]. destruct (_ <=? _); [discriminate|intros ex E; injection E as <-; reflexivity].
  Qed.
  Lemma expand_view (b : buffer A) v t sizes : view b v t -> both (view b) (v_expand v sizes) (t_expand t sizes).
  Proof.
    intros H. apply (view_of b v t _ (fun t => t_expand t sizes) H); clear H t.
    - intros v' E Hl. apply expand_places; assumption.
    - intros v' E Hl. unfold v_expand in E. apply bind_Ok in E as [s' [Es E]]. injection E as <-. cbn [a_buf a_str a_shp].
      split; [reflexivity|]. rewrite map2_len by exact Hl. symmetry. eapply expand_shape_len, Es.
    - intros ex E. unfold v_expand, t_expand in *. cbn [shp places]. apply bind_Err in E as [E|[s' [_ E]]]; [rewrite E; reflexivity|discriminate].
  Qed.
  Lemma slice_view (b : buffer A) v t axis lo hi : view b v t -> both (view b) (v_slice v axis lo hi) (t_slice t axis lo hi).
  Proof.
    intros H. apply (view_of b v t _ (fun t => t_slice t axis lo hi) H); clear H t.
    - intros v' E Hl. apply slice_places; assumption.
    - intros v' E Hl. unfold v_slice in E. destruct (_ <? _); [|discriminate]. injection E as <-. cbn [a_buf a_str a_shp]. rewrite replace_nth_length. auto.
    - unfold v_slice, t_slice. cbn [shp places]. destruct (_ <? _); [discriminate|intros ex E; injection E as <-; reflexivity].
  Qed.
  (** a reshape that does not copy *)
  Lemma reshape_view (b : buffer A) v t s : view b v t ->
    (forall s', resolve_shape (rt_lib r) (prodn (a_shp v)) s = Ok s' -> nocopy (a_shp v) (a_str v) s' <> None) ->
    both (view b) (v_reshape mem nocopy (rt_lib r) v s) (t_reshape (rt_lib r) t s).
  Proof.
    intros (Eb & El & <-) H. unfold v_reshape, t_reshape. cbn [shp places]. destruct (resolve_shape _ _ _) as [s'|] eqn:E; [|reflexivity]. specialize (H s' eq_refl).
    apply resolve_prod in E. cbn [bind]. destruct (nocopy _ _ _) as [st|] eqn:En; [|contradiction]. apply (nc_sound _ Hnc _ _ _ _ El E) in En as [L P].
    split; [exact Eb|]. split; [exact L|]. unfold places. cbn [a_off a_shp a_str dat]. rewrite P. reflexivity.
  Qed.
  Lemma expand_axes_view (b : buffer A) v t n l : view b v t -> both (view b) (v_expand_add_axes v n l) (expand_add_axes t n l).
  Proof.
    intros H. unfold v_expand_add_axes, expand_add_axes, v_add_loop. apply (both_bind (fun p q => view b (fst p) (fst q) /\ snd p = snd q)).
    - apply both_foldM; [|split; [exact H|reflexivity]]. intros [x s] [x' s'] [p k] [Hx Hs]. cbn in Hx, Hs. subst s'.
      apply (both_bind (view b)); [apply expand_dims_view, Hx|]. intros y y' Hy. apply both_bind_same. intros s1. split; [exact Hy|reflexivity].
    - intros [x s] [x' s'] [Hx Hs]. cbn in Hx, Hs. subst s'. apply expand_view, Hx.
  Qed.

  (** ** a view, or something in a new buffer *)
  Lemma v_transpose_buf (v : array A) axes v' : v_transpose v axes = Ok v' -> a_buf v' = a_buf v.
  Proof. unfold v_transpose. destruct (is_permutation _ _); [|discriminate]. intros E. injection E as <-. reflexivity. Qed.
  Lemma v_reshape_buf v s v' : v_reshape mem nocopy (rt_lib r) v s = Ok v' -> a_buf v' = a_buf v \/ own_buffer v'.
  Proof.
    unfold v_reshape. intros H. apply bind_Ok in H as [s' [_ H]]. destruct (nocopy _ _ _); [injection H as <-; left; reflexivity|]. apply bind_Ok in H as [t [_ H]]. injection H as <-. right. eexists. reflexivity.
  Qed.
  Lemma compute_new m v : @compute A m = Ok v -> own_buffer v.
  Proof. intros H. apply bind_Ok in H as [t [_ H]]. injection H as <-. eexists. reflexivity. Qed.
  Lemma loop_buf fill (v : array A) n l v' s : v_add_loop fill v n l = Ok (v', s) -> a_buf v' = a_buf v.
  Proof.
    unfold v_add_loop. intros H. apply (foldM_inv (fun p : array A * list Z => a_buf (fst p) = a_buf v)) in H; [exact H| |reflexivity].
    intros [x s0] [p k] [x' s1] Hx E. cbn in Hx. apply bind_Ok in E as [y [Ey E]]. apply bind_Ok in E as [s2 [_ E]]. injection E as <- <-. cbn.
    unfold v_expand_dims in Ey. destruct (_ <=? _); [|discriminate]. injection Ey as <-. exact Hx.
  Qed.
  Lemma add_axes_buf v n l v' : b_add_axes B v n l = Ok v' -> (expands (rt_framework r) = true /\ a_buf v' = a_buf v) \/ (expands (rt_framework r) = false /\ own_buffer v').
  Proof.
    cbn [array_backend b_add_axes]. destruct (expands _); intros H; apply bind_Ok in H as [[x s] [E H]].
    - left. split; [reflexivity|]. apply bind_Ok in H as [s' [_ H]]. injection H as <-. cbn. eapply loop_buf, E.
    - right. split; [reflexivity|]. eapply compute_new, H.
  Qed.
  Lemma new_stays (v v' : array A) : a_buf v' = a_buf v \/ own_buffer v' -> own_buffer v -> own_buffer v'.
  Proof. intros [E|H] [d Hd]; [exists d; congruence|exact H]. Qed.

  (** what follows the reductions keeps the buffer or takes a new one *)
  Lemma v_tail_buf k v v' : (let* t4 := match k_added k with [] => Ok v | _ => b_add_axes B v (k_naxes k) (k_added k) end in
      match k_final k with Some s => b_reshape B t4 s | None => Ok t4 end) = Ok v' ->
    (a_buf v' = a_buf v \/ own_buffer v') /\ (k_added k <> [] -> expands (rt_framework r) = false -> own_buffer v').
  Proof.
    intros H. apply bind_Ok in H as [v4 [E4 H]].
    assert (F : a_buf v' = a_buf v4 \/ own_buffer v') by (destruct (k_final k); [eapply v_reshape_buf, H|injection H as <-; left; reflexivity]).
    destruct (k_added k) as [|p l] eqn:Ea.
    - injection E4 as <-. split; [exact F|congruence].
    - apply add_axes_buf in E4 as [[Ex E4]|[Ex E4]].
      + split; [|congruence]. destruct F as [F|F]; [left; congruence|right; exact F].
      + pose proof (new_stays _ _ F E4) as N. auto.
  Qed.

  Section Call.
    Context (Hok : runtime_ok r) (pattern : pystr) (sizes : list (pystr * Z)) (x : array A) (w : role) (L R : expr) (e : nat) (len : label -> nat).
    Context (Hn : NoDup (map fst sizes)) (Hres : no_reserved sizes) (Hc : call_ok (rt_unicode r) w pattern sizes (a_shp x) L R e len).
    Notation gl := (left_groups e L).
    Notation gr := (right_groups e L R).

    Lemma no_reserved_check : check_kwargs reserved_kwargs sizes = Ok tt.
    Proof. apply check_kwargs_iff, Hres. Qed.
    Lemma cooked_call red : op_role (op_of red) = Some w -> exists k,
      v_reduce mem nocopy r (One x) pattern red sizes = apply_cooked B k x red /\
      k_init k = (if singles gl then None else Some (map Z.of_nat (map len (concat gl)))) /\
      k_reorder k = (if list_eq_dec label_eq_dec (kept gl gr ++ missing gl gr) (concat gl) then None else Some (map (place (concat gl)) (kept gl gr ++ missing gl gr))) /\
      k_reduced k = seq (length (kept gl gr)) (length (missing gl gr)) /\
      k_added k = map (fun '(i, a) => (i, Z.of_nat (len a))) (fresh_axes gl gr) /\
      (fresh_axes gl gr <> [] -> k_naxes k = length (concat gr)) /\
      k_final k = (if singles gr then None else Some (map Z.of_nat (gshape len gr))).
    Proof.
      intros Hw. destruct (cooked_known (rt_unicode r) (ro_unicode _ Hok) (rt_orders r) (ro_orders _ Hok) pattern (op_of red) sizes (a_shp x) w L R e len Hn Hw Hc) as (rc & k & E1 & E2 & E3).
      exists k. split; [|exact E3]. unfold v_reduce, api_reduce. rewrite no_reserved_check. cbn [bind stack_input]. unfold apply_recipe. cbn [b_shape array_backend]. rewrite map_length, E1. cbn [bind]. rewrite E2. reflexivity.
    Qed.

    (** *** new buffers *)
    Lemma call_new s y : op_role (op_of (RStr (T := array A) s)) = Some w -> v_reduce mem nocopy r (One x) pattern (RStr s) sizes = Ok y ->
      missing gl gr <> [] \/ (fresh_axes gl gr <> [] /\ expands (rt_framework r) = false) -> own_buffer y.
    Proof.
      intros Hw H Hcase. destruct (cooked_call _ Hw) as (k & E & _ & _ & Er & Ea & _ & _). rewrite E in H. unfold apply_cooked in H.
      apply bind_Ok in H as [v1 [E1 H]]. apply bind_Ok in H as [v2 [E2 H]]. apply bind_Ok in H as [v3 [E3 H]]. apply v_tail_buf in H as [T1 T2]. destruct Hcase as [Hm|[Hf Hx]].
      - apply (new_stays v3); [exact T1|]. rewrite Er in E3. destruct (missing gl gr) as [|a l]; [contradiction|]. cbn [length seq] in E3.
        cbn [reduce_axes] in E3. apply bind_Ok in E3 as [_ [_ E3]]. apply bind_Ok in E3 as [_ [_ E3]]. eapply compute_new, E3.
      - apply T2; [|exact Hx]. rewrite Ea. destruct (fresh_axes gl gr); [contradiction|discriminate].
    Qed.

    (** *** views *)
    Context (Hl : length (a_str x) = length (a_shp x)) (Hm : missing gl gr = []) (Hx : fresh_axes gl gr = [] \/ expands (rt_framework r) = true).
    Let rZ : runtime Z := place_runtime r.

    Lemma init_view k : k_init k = (if singles gl then None else Some (map Z.of_nat (map len (concat gl)))) ->
      exists v1, match k_init k with Some s => b_reshape B x s | None => Ok x end = Ok v1 /\ view (a_buf x) v1 (places v1) /\
        match k_init k with Some s => t_reshape (rt_lib r) (places x) s | None => Ok (places x) end = Ok (places v1) /\ a_shp v1 = map len (concat gl).
    Proof.
      intros ->. pose proof (co_fits _ _ _ _ _ _ _ _ _ Hc) as [Eg _]. destruct (singles gl) eqn:Es.
      - exists x. split; [reflexivity|]. split; [repeat split; exact Hl|]. split; [reflexivity|]. rewrite <- Eg. clear -Es. unfold gshape. induction gl as [|g gs IH]; [reflexivity|].
        cbn in Es. apply andb_prop in Es as [E1 E2]. destruct g as [|a [|c g]]; try discriminate. cbn [map concat app]. rewrite (IH E2). f_equal. rewrite prodn_cons. cbn. lia.
      - assert (Ep : prodn (map len (concat gl)) = prodn (a_shp x)).
        { rewrite <- Eg. unfold gshape. rewrite concat_map, prodn_concat, map_map. reflexivity. }
        assert (V : both (view (a_buf x)) (b_reshape B x (map Z.of_nat (map len (concat gl)))) (t_reshape (rt_lib r) (places x) (map Z.of_nat (map len (concat gl))))).
        { apply reshape_view; [repeat split; exact Hl|]. rewrite resolve_nats by exact Ep. intros s' E. injection E as <-.
          replace (a_shp x) with (map prodn (map (map len) gl)) by (rewrite map_map; exact Eg). rewrite concat_map. apply (nc_split _ Hnc _ _ 0). rewrite Hl, <- Eg. unfold gshape. rewrite !map_length. reflexivity. }
        unfold t_reshape in V |- *. cbn [shp places] in V |- *. rewrite resolve_nats in V |- * by exact Ep. cbn [bind] in V |- *. destruct (b_reshape B x _) as [v1|]; [|contradiction]. destruct V as (V1 & V2 & V3).
        exists v1. split; [reflexivity|]. split; [repeat split; assumption|]. split; [rewrite V3; reflexivity|]. apply (f_equal shp) in V3. exact V3.
    Qed.

    Lemma fresh_none : fresh_axes gl gr = [] -> kept gl gr = concat gr.
    Proof.
      intros H. apply kept_all. intros a Ha. destruct (existsb (label_eqb a) (concat gl)) eqn:E; [apply label_mem_In, E|]. exfalso.
      assert (G : forall l k, In a l -> exists i, In (i, a) (enumerate_from k l)).
      { induction l as [|b l IH]; intros k Hb; [destruct Hb|]. destruct Hb as [->|Hb]; [exists k; left; reflexivity|]. destruct (IH (S k) Hb) as [i Hi]. exists i. right. exact Hi. }
      destruct (G _ 0 Ha) as [i Hi]. assert (X : In (i, a) (fresh_axes gl gr)) by (apply filter_In; split; [exact Hi|rewrite E; reflexivity]). rewrite H in X. exact X.
    Qed.
    Let target := map (fun a => if existsb (label_eqb a) (concat gl) then None else Some (len a)) (concat gr).
    Lemma target_inserted : inserted target = map (fun '(i, a) => (i, Z.of_nat (len a))) (fresh_axes gl gr).
    Proof.
      unfold inserted, fresh_axes, target, enumerate. generalize 0. induction (concat gr) as [|a l IH]; intros k; [reflexivity|]. cbn [map enumerate_from flat_map filter].
      destruct (existsb (label_eqb a) (concat gl)); cbn [negb app map]; rewrite IH; reflexivity.
    Qed.
    Lemma target_filled : filled target (map len (kept gl gr)) = map len (concat gr) /\ count_old target = length (map len (kept gl gr)).
    Proof.
      unfold kept, target, count_old. induction (concat gr) as [|a l [IH1 IH2]]; [split; reflexivity|]. cbn [map filter].
      destruct (existsb (label_eqb a) (concat gl)); cbn [filled filter map length]; rewrite IH1, ?IH2; split; reflexivity.
    Qed.
    Lemma before_final red : op_role (op_of red) = Some w -> exists v4 p,
      v_reduce mem nocopy r (One x) pattern red sizes = (if singles gr then Ok v4 else v_reshape mem nocopy (rt_lib r) v4 (map Z.of_nat (gshape len gr))) /\
      view (a_buf x) v4 (places v4) /\ a_shp v4 = map len (concat gr) /\
      (if singles gr then Ok (places v4) else t_reshape (rt_lib r) (places v4) (map Z.of_nat (gshape len gr))) = Ok p /\ moves gl gr len (places x) p.
    Proof.
      intros Hw. set (redZ := match red with RStr s => RStr s | RCall _ => RCall (fun (t : tensor Z) _ => Ok t) end).
      assert (Hw' : op_role (op_of redZ) = Some w) by (destruct red; exact Hw).
      destruct (api_moves_ex (rt_unicode r) (ro_unicode _ Hok) (rt_orders r) (ro_orders _ Hok) (rt_lib r) (fun _ _ => Err BackendError) (fun _ => false) Z.of_nat (rt_framework r) (places x) pattern sizes Hn (places_wf x) Hres redZ w L R e len Hw' Hc Hm) as [p [Hp Mp]].
      destruct (cooked_known (rt_unicode r) (ro_unicode _ Hok) (rt_orders r) (ro_orders _ Hok) pattern (op_of red) sizes (a_shp x) w L R e len Hn Hw Hc) as (rc & k & E1 & E2 & Ki & Kr & Kd & Ka & Kn & Kf).
      assert (Ev : v_reduce mem nocopy r (One x) pattern red sizes = apply_cooked B k x red).
      { unfold v_reduce, api_reduce. rewrite no_reserved_check. cbn [bind stack_input]. unfold apply_recipe. cbn [b_shape array_backend]. rewrite map_length, E1. cbn [bind]. rewrite E2. reflexivity. }
      fold (rt_backend rZ) in Hp. change (backend_of _ _ _ _ _) with (rt_backend rZ) in Hp.
      assert (Hp' : apply_cooked (rt_backend rZ) k (places x) redZ = Ok p).
      { rewrite <- Hp. unfold api_reduce. rewrite no_reserved_check. cbn [bind stack_input]. unfold apply_recipe. rewrite backend_shape. unfold int_shape. cbn [shp places]. rewrite map_length.
        replace (op_of redZ) with (op_of red) by (destruct red; reflexivity). rewrite E1. cbn [bind]. rewrite E2. reflexivity. }
      clear Hp E1 E2. rewrite Ev. clear Ev. unfold apply_cooked in *. rewrite Kd, Hm in *. cbn [length seq] in *.
      destruct (init_view k Ki) as (v1 & I1 & I2 & I3 & I4). rewrite I1.
      assert (I3' : match k_init k with Some s => b_reshape (rt_backend rZ) (places x) s | None => Ok (places x) end = Ok (places v1)) by (rewrite <- I3; destruct (k_init k); [rewrite backend_reshape|]; reflexivity).
      rewrite I3' in Hp'. clear I3'. cbn [bind] in Hp' |- *. clear I1 I3 Ki.
      (* the order *)
      assert (O : exists v2, match k_reorder k with Some p => b_transpose B v1 p | None => Ok v1 end = Ok v2 /\ view (a_buf x) v2 (places v2) /\
        match k_reorder k with Some p => b_transpose (rt_backend rZ) (places v1) p | None => Ok (places v1) end = Ok (places v2) /\ a_shp v2 = map len (kept gl gr)).
      { apply bind_Ok in Hp' as [t2 [H2 _]]. rewrite app_nil_r in Kr. rewrite Kr in H2 |- *. destruct (list_eq_dec _ _ _) as [Eo|Eo].
        - exists v1. rewrite Eo. auto.
        - rewrite backend_transpose in H2 |- *. pose proof (transpose_view (a_buf x) v1 _ (map (place (concat gl)) (kept gl gr)) I2) as V. rewrite H2 in V.
          cbn [array_backend b_transpose]. destruct (v_transpose v1 _) as [v2|] eqn:E2; [|contradiction]. destruct V as (V1 & V2 & V3). exists v2. split; [reflexivity|]. split; [repeat split; assumption|]. split; [congruence|].
          unfold v_transpose in E2. destruct (is_permutation _ _); [|discriminate]. injection E2 as <-. cbn [a_shp]. rewrite I4, map_map. apply map_ext_in. intros a Ha. apply nth_place. apply in_kept in Ha. apply Ha. }
      destruct O as (v2 & O1 & O2 & O3 & O4). rewrite O1. rewrite O3 in Hp'. cbn [bind] in Hp' |- *. clear O1 O3 Kr.
      assert (P : exists v4, match k_added k with [] => Ok v2 | _ => b_add_axes B v2 (k_naxes k) (k_added k) end = Ok v4 /\ view (a_buf x) v4 (places v4) /\
        match k_added k with [] => Ok (places v2) | _ => b_add_axes (rt_backend rZ) (places v2) (k_naxes k) (k_added k) end = Ok (places v4) /\ a_shp v4 = map len (concat gr)).
      { apply bind_Ok in Hp' as [t4 [H4 _]]. rewrite Ka in H4 |- *. destruct (fresh_axes gl gr) as [|q l] eqn:Ef.
        - cbn [map] in H4 |- *. exists v2. rewrite O4, (fresh_none Ef). auto.
        - destruct Hx as [X|Hx']; [discriminate|]. rewrite <- Ef, <- target_inserted in H4 |- *.
          rewrite Kn in H4 |- * by congruence. replace (length (concat gr)) with (length target) in H4 |- * by (unfold target; apply map_length).
          destruct target_filled as [T1 T2].
          destruct (add_axes_agree (places v2) target (places_wf v2)) as (y & _ & Y2 & _ & _ & Y5 & _). { cbn [shp places]. rewrite O4. symmetry. exact T2. }
          cbn [shp places] in Y5. rewrite O4, T1 in Y5.
          pose proof (expand_axes_view (a_buf x) v2 _ (length target) (inserted target) O2) as V. rewrite Y2 in V.
          assert (Eb : b_add_axes (rt_backend rZ) (places v2) (length target) (inserted target) = Ok y).
          { rewrite <- Y2. unfold rt_backend. cbn [rZ place_runtime rt_framework rt_lib rt_red rt_isf rt_num]. destruct (rt_framework r); try discriminate; reflexivity. }
          cbn [array_backend b_add_axes]. rewrite Hx'. destruct (v_expand_add_axes v2 _ _) as [v4|]; [|contradiction]. destruct V as (V1 & V2 & V3). exists v4.
          assert (Hne : inserted target <> []) by (rewrite target_inserted, Ef; discriminate).
          destruct (inserted target) as [|z zs]; [contradiction|]. split; [reflexivity|]. split; [repeat split; assumption|]. split; [rewrite V3; exact Eb|]. apply (f_equal shp) in V3. cbn [shp places] in V3. congruence. }
      destruct P as (v4 & P1 & P2 & P3 & P4). rewrite P1. rewrite P3 in Hp'. cbn [bind] in Hp' |- *. rewrite Kf in Hp' |- *. exists v4, p.
      destruct (singles gr); [auto|]. rewrite backend_reshape in Hp'. cbn [array_backend b_reshape rZ place_runtime rt_lib] in *. auto.
    Qed.
    Lemma call_view red : op_role (op_of red) = Some w -> flat_groups gr -> exists y,
      v_reduce mem nocopy r (One x) pattern red sizes = Ok y /\ a_buf y = a_buf x /\ length (a_str y) = length (a_shp y) /\ moves gl gr len (places x) (places y).
    Proof.
      intros Hw Hf. destruct (before_final red Hw) as (v4 & p & E & V & S & P & M). rewrite E. destruct (singles gr).
      - injection P as <-. destruct V as (V1 & V2 & _). eauto.
      - assert (G : both (view (a_buf x)) (v_reshape mem nocopy (rt_lib r) v4 (map Z.of_nat (gshape len gr))) (t_reshape (rt_lib r) (places v4) (map Z.of_nat (gshape len gr)))).
        { apply reshape_view; [exact V|]. intros s' Es. assert (s' = gshape len gr) as ->.
          { eapply resolve_frame_nil, Es. }
          rewrite S. destruct (flat_split len gr Hf) as (k & parts & F1 & F2). rewrite F1, <- F2. apply (nc_split _ Hnc). destruct V as (_ & V & _). rewrite V, S, <- (map_length prodn), F2. reflexivity. }
        rewrite P in G. destruct (v_reshape _ _ _ _ _) as [y|]; [|contradiction]. destruct G as (G1 & G2 & G3). exists y. rewrite G3. auto.
    Qed.
    Lemma call_either red y : op_role (op_of red) = Some w -> v_reduce mem nocopy r (One x) pattern red sizes = Ok y ->
      (a_buf y = a_buf x /\ moves gl gr len (places x) (places y)) \/ own_buffer y.
    Proof.
      intros Hw H. destruct (before_final red Hw) as (v4 & p & E & V & S & P & M). rewrite E in H. destruct (singles gr).
      - injection P as <-. injection H as <-. left. destruct V as (V1 & V2 & _). auto.
      - pose proof H as H'. unfold v_reshape in H'. apply bind_Ok in H' as [s' [Es H']]. destruct (nocopy _ _ s') eqn:En.
        + left. assert (G : both (view (a_buf x)) (v_reshape mem nocopy (rt_lib r) v4 (map Z.of_nat (gshape len gr))) (t_reshape (rt_lib r) (places v4) (map Z.of_nat (gshape len gr)))).
          { apply reshape_view; [exact V|]. intros s2 Es2. rewrite Es in Es2. injection Es2 as <-. congruence. }
          rewrite H, P in G. destruct G as (G1 & G2 & G3). rewrite G3. auto.
        + right. apply bind_Ok in H' as [t [_ H']]. injection H' as <-. eexists. reflexivity.
    Qed.
  End Call.
End Sharing.
