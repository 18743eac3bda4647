(** * Dimensions of the tensors made on the way *)
From Verif Require Import Py Tensor ListFacts TensorFacts SpecSem SpecGrammar SpecPattern SpecOps SpecCalls Parsing Recipe Ops Backends Api Packing
  StrideFacts2 FrontFacts3 MainFacts3 ApiFacts4 Layers Footprint SpecFootprint FootprintFacts FootprintShapes LayerFootprint SpecLayerFootprint LayerFootprintFacts LayerFootprintFacts2 SpecRank.

Lemma filter_short {X} (f : X -> bool) l : length (filter f l) <= length l.
Proof. induction l as [|a l IH]; [reflexivity|]. cbn [filter]. destruct (f a); cbn [length]; lia. Qed.
Lemma made_rank m gl gr len : NoDup (kept gl gr ++ missing gl gr) -> forall s, In s (shapes_made m gl gr len) ->
  length s <= most_dims gl gr.
Proof.
  intros Hnd s. unfold shapes_made.
  assert (K : length (kept gl gr ++ missing gl gr) <= length (concat gl)).
  { apply NoDup_incl_length; [exact Hnd|]. intros a Ha. apply in_app_or in Ha as [Ha|Ha]; apply filter_In in Ha as [H1 H2]; [apply label_mem_In, H2|exact H1]. }
  assert (K' := K). rewrite app_length in K'.
  assert (M1 : length gl <= most_dims gl gr) by (unfold most_dims; lia).
  assert (M2 : length (concat gl) <= most_dims gl gr) by (unfold most_dims; lia).
  assert (M3 : length gr <= most_dims gl gr) by (unfold most_dims; lia).
  assert (M4 : length (concat gr) <= most_dims gl gr) by (unfold most_dims; lia).
  assert (B : forall s', In s [s'] -> length s' <= most_dims gl gr -> length s <= most_dims gl gr) by (intros s' [<-|[]] H; exact H).
  intros H. repeat (apply in_app_or in H as [H|H]).
  - destruct (singles gl); [destruct H|]. eapply B; [exact H|]. rewrite map_length. exact M2.
  - destruct (list_eq_dec _ _ _); [destruct H|]. eapply B; [exact H|]. rewrite map_length. lia.
  - destruct (missing gl gr) as [|g0 gone] eqn:E; [destruct H|]. rewrite <- E in *. destruct m.
    + eapply B; [exact H|]. rewrite map_length. lia.
    + apply in_map_iff in H as (k & <- & _). rewrite map_length, app_length, firstn_length. lia.
    + apply in_app_or in H as [H|H].
      * destruct (kept gl gr); [|destruct H]. destruct H as [<-|[]]. rewrite E in K'. cbn [length] in K' |- *. lia.
      * eapply B; [exact H|]. rewrite map_length. lia.
  - destruct (fresh_axes gl gr) as [|n0 new] eqn:E; [destruct H|]. rewrite <- E in *. apply in_app_or in H as [H|H].
    + apply in_map_iff in H as ([i a] & <- & _). rewrite app_length, !map_length, firstn_length.
      pose proof (filter_short (is_old gl) (skipn (S i) (concat gr))) as F. rewrite skipn_length in F. lia.
    + eapply B; [exact H|]. rewrite map_length. exact M4.
  - destruct (singles gr); [destruct H|]. eapply B; [exact H|]. unfold gshape. rewrite map_length. exact M3.
Qed.
Section Calls.
  Context {A : Type} (r : runtime A) (Hr : runtime_ok r).
  Context (pattern : pystr) (sizes : list (pystr * Z)) (sh : list nat) (w : role) (L R : expr) (e : nat) (len : label -> nat).
  Context (Hns : NoDup (map fst sizes)) (Hok : call_ok (rt_unicode r) w pattern sizes sh L R e len).
  Notation gl := (left_groups e L).
  Notation gr := (right_groups e L R).
  Lemma order_NoDup : NoDup (kept gl gr ++ missing gl gr).
  Proof.
    destruct Hr as [HU _]. destruct Hok. apply NoDup_app_iff. split; [apply NoDup_filter; eapply gr_NoDup; eauto|]. split; [apply NoDup_filter; eapply gl_NoDup; eauto|].
    intros a Ha Hb. apply in_kept in Ha. apply in_missing in Hb. tauto.
  Qed.
  Lemma shape_dims : length sh = length gl.
  Proof. rewrite <- (proj1 (co_fits _ _ _ _ _ _ _ _ _ Hok)). unfold gshape. apply map_length. Qed.
  Lemma logged_ranks (x : input (tensor A)) m log : rev log = stacked sh x ++ shapes_made m gl gr len ->
    forall s, In s log -> length s <= most_dims gl gr.
  Proof.
    intros E s Hs. apply in_rev in Hs. rewrite E in Hs. apply in_app_or in Hs as [Hs|Hs]; [|eapply made_rank; [apply order_NoDup|exact Hs]].
    destruct x; cbn [stacked] in Hs; [destruct Hs|]. destruct Hs as [<-|[]]. rewrite shape_dims. unfold most_dims. lia.
  Qed.
  Lemma reduce_ranks x (op : pystr) y log : no_reserved sizes -> @runs_as (logged A) (RStr op) w -> input_shape sh x ->
    logged_reduce r (fresh x) pattern (RStr op) sizes = Ok (y, log) ->
    forall s, In s log -> length s <= most_dims gl gr.
  Proof.
    intros Hres Hw Hx H s Hs. pose proof (shapes_known r Hr pattern sizes sh w L R e len op Hns Hres Hok Hw x y log Hx H) as E.
    exact (logged_ranks x _ log E s Hs).
  Qed.
  Lemma xp_ranks x (op : pystr) y log : no_reserved sizes -> @runs_as (logged A) (RStr op) w -> input_shape sh x ->
    logged_xp_reduce r (fresh x) pattern (RStr op) sizes = Ok (y, log) -> forall s, In s log -> length s <= most_dims gl gr.
  Proof.
    intros Hres Hw Hx H s Hs. pose proof (shapes_known_xp r Hr pattern sizes sh w L R e len op Hns Hres Hok Hw x y log Hx H) as E.
    exact (logged_ranks x _ log E s Hs).
  Qed.
End Calls.
Section Layer.
  Context {A : Type} (r : runtime A) (os : nat -> orders).
  Lemma layer_ranks pattern (op : pystr) sizes (M : layer (logged A)) x y log w L R e len :
    runtime_ok r -> (forall n, orders_ok (os n)) -> NoDup (map fst sizes) ->
    Reduce (rt_unicode r) os pattern (RStr op) sizes = Ok M \/ op = lit "rearrange" /\ Rearrange (rt_unicode r) os pattern sizes = Ok M ->
    call_ok (rt_unicode r) w pattern sizes (shp x) L R e len -> @runs_as (logged A) (RStr op) w ->
    logged_call_layer r M (new x) = Ok (y, log) ->
    forall s, In s log -> length s <= most_dims (left_groups e L) (right_groups e L R).
  Proof.
    intros Hr Ho Hns HM Hok Hw H s Hs. pose proof (any_layer_shapes r os pattern op sizes M x y log w L R e len Hr Ho Hns HM Hok Hw H) as E.
    exact (logged_ranks r Hr pattern sizes (shp x) w L R e len Hok (One x) _ log E s Hs).
  Qed.
End Layer.

Section Pieces.
  Context {A : Type} (r : runtime A).
  Lemma concat_ranks (ts : list (tensor A)) k y : t_concat ts k = Ok y -> forall t, In t ts -> rank t = rank y.
  Proof.
    unfold t_concat, rank. destruct ts as [|t0 ts]; [discriminate|]. destruct ((_ <? _) && _) eqn:E; [|discriminate]. intros H t Ht.
    apply tabulate_shape in H. apply andb_prop in E as [_ E]. rewrite forallb_forall in E. apply E in Ht. apply shape_eqb_eq in Ht.
    apply (f_equal (@length nat)) in Ht. rewrite !replace_nth_length in Ht. rewrite H, replace_nth_length. exact Ht.
  Qed.
  Lemma pack_ranks (ts : list (tensor A)) pattern (y : tensor A) log shapes : logged_pack r (map (fun t => (t, [])) ts) pattern = Ok ((y, log), shapes) ->
    forall s, In s log -> length s = rank y.
  Proof.
    unfold logged_pack, pack_with, pack_given. intros H. apply bind_Ok in H as [[[before after] mn] [_ H]]. apply bind_Ok in H as [? [_ H]].
    apply bind_Ok in H as [[reshaped shapes'] [H1 H]]. apply bind_Ok in H as [t [H2 H]]. injection H as -> ->.
    assert (H3 : note (logs reshaped) (t_concat (map fst reshaped) before) = Ok (y, log)) by (transitivity (b_concat (logged_backend r) reshaped before); [unfold logged_backend; destruct (rt_framework r); reflexivity|exact H2]).
    apply note_Ok in H3 as [H4 H3]. cbn [fst snd] in H4, H3. clear H2.
    assert (G : forall l acc sh out shs, foldM (fun '(reshaped, packed_shapes) tensor =>
        let shape := b_shape (logged_backend r) tensor in let* _ := raise_if (length shape <? mn) EinopsError in
        let* t := b_reshape (logged_backend r) tensor (firstn before shape ++ [(-1)%Z] ++ skipn (length shape - after) shape) in
        Ok (reshaped ++ [t], packed_shapes ++ [skipn before (firstn (length shape - after) shape)])) (map (fun t => (t, [])) l) (acc, sh) = Ok (out, shs) ->
      logs acc = map (fun u => shp (fst u)) acc -> logs out = map (fun u => shp (fst u)) out).
    { induction l as [|a l IH]; intros acc sh out shs F Ha; cbn [map foldM] in F; [injection F as <- <-; exact Ha|]. cbv zeta in F.
      apply bind_Ok in F as [[acc' sh'] [F1 F2]]. apply bind_Ok in F1 as [? [_ F1]]. apply bind_Ok in F1 as [t [F1 F3]]. injection F3 as <- <-.
      apply (IH _ _ _ _ F2). rewrite lb_reshape in F1. apply note_Ok in F1 as [F1 F3]. cbn [fst snd] in F1, F3.
      unfold logs in *. rewrite flat_map_app, map_app. apply f_equal2; [exact Ha|]. cbn [flat_map map]. rewrite F3. reflexivity. }
    specialize (G _ _ _ _ _ H1 eq_refl). intros s Hs. rewrite H3 in Hs. destruct Hs as [<-|Hs]; [reflexivity|].
    rewrite G in Hs. apply in_map_iff in Hs as (u & <- & Hu). apply (concat_ranks _ _ _ H4 (fst u)). apply in_map, Hu.
  Qed.
  Lemma unpack_ranks (x : tensor A) shapes pattern ys : logged_unpack r (x, []) shapes pattern = Ok ys ->
    forall (y : tensor A) log, In (y, log) ys -> exists s, log = [shp y; s] /\ length s = rank x.
  Proof.
    unfold logged_unpack, unpack_with, unpack_given. intros H. apply bind_Ok in H as [[[before after] mn] [_ H]]. apply bind_Ok in H as [? [_ H]]. apply bind_Ok in H as [? [_ H]].
    apply bind_Ok in H as [n [_ H]]. apply bind_Ok in H as [sp [_ H]]. destruct (mapM _ (enumerate shapes)) as [ts|] eqn:E; [|discriminate]. injection H as ->.
    intros y log Hy.
    destruct (mapM_from _ _ _ _ E Hy) as ([i sh] & _ & F). apply bind_Ok in F as [a [_ F]]. apply bind_Ok in F as [b [_ F]]. apply bind_Ok in F as [piece [F1 F2]].
    assert (F3 : note [] (t_slice x before a b) = Ok piece) by (transitivity (b_slice (logged_backend r) (x, []) before a b); [unfold logged_backend; destruct (rt_framework r); reflexivity|exact F1]).
    apply note_Ok in F3 as [F5 F3]. rewrite lb_reshape in F2. apply note_Ok in F2 as [F2 F4]. cbn [fst snd] in *. exists (shp (fst piece)). split; [congruence|].
    unfold t_slice in F5. destruct (_ <? _); [|discriminate]. apply tabulate_shape in F5. unfold rank. rewrite F5. apply replace_nth_length.
  Qed.
End Pieces.
