(** * Caches: every call returns what it would return without them *)
From Verif Require Import Py Tensor Parsing Recipe Ops Backends Api Packing Einsum ListFacts ParseFacts ApiFacts6 Cache.

Lemma list_eqb_eq {A} (eqb : A -> A -> bool) : (forall a b, eqb a b = true -> a = b) -> forall l m, list_eqb eqb l m = true -> l = m.
Proof.
  intros H. induction l as [|x l IH]; intros [|y m] E; cbn in E; try discriminate; [reflexivity|].
  apply andb_true_iff in E as [E1 E2]. rewrite (H _ _ E1), (IH _ E2). reflexivity.
Qed.
Lemma rkey_eqb_op (p p' : pystr) (op op' : opkey) ns ns' n n' : rkey_eqb (p, op, ns, n) (p', op', ns', n') = true ->
  p = p' /\ op_of_key op = op_of_key op' /\ ns = ns' /\ n = n'.
Proof.
  unfold rkey_eqb. intros E. apply andb_true_iff in E as [E E4]. apply andb_true_iff in E as [E E3]. apply andb_true_iff in E as [E1 E2].
  split; [apply str_eqb_eq, E1|]. split; [|split; [|apply Nat.eqb_eq, E4]].
  - destruct op as [s|i], op' as [t|j]; try discriminate; [|reflexivity]. cbn in E2. apply str_eqb_eq in E2. subst. reflexivity.
  - apply (list_eqb_eq str_eqb); [|exact E3]. intros a b. apply str_eqb_eq.
Qed.

Lemma In_firstn' {A} (x : A) n l : In x (firstn n l) -> In x l.
Proof. intros H. rewrite <- (firstn_skipn n l). apply in_or_app. left. exact H. Qed.

Section Lru.
  Context {K V : Type} (eqb : K -> K -> bool) (maxsize : nat).
  Lemma take_key_spec k (c : list (K * V)) e rest : take_key eqb k c = Some (e, rest) ->
    In e c /\ eqb k (fst e) = true /\ incl rest c.
  Proof.
    revert e rest. induction c as [|[k' v'] c IH]; intros e rest E; cbn in E; [discriminate|]. destruct (eqb k k') eqn:Ek.
    - injection E as <- <-. split; [left; reflexivity|]. split; [exact Ek|]. apply incl_tl, incl_refl.
    - destruct (take_key eqb k c) as [[e' rest']|] eqn:E2; [|discriminate]. injection E as <- <-.
      destruct (IH _ _ eq_refl) as (H1 & H2 & H3). split; [right; exact H1|]. split; [exact H2|].
      intros a [<-|Ha]; [left; reflexivity|right; apply H3, Ha].
  Qed.
  Lemma lru_spec compute k (c : list (K * V)) r c' : lru eqb maxsize compute k c = (r, c') ->
    (exists k' v, take_key eqb k c <> None /\ In (k', v) c /\ eqb k k' = true /\ r = Ok v /\ incl c' c) \/
    (take_key eqb k c = None /\ r = compute tt /\ forall e, In e c' -> In e c \/ exists v, e = (k, v) /\ r = Ok v).
  Proof.
    unfold lru. destruct (take_key eqb k c) as [[[k' v] rest]|] eqn:E.
    - intros H. injection H as <- <-. left. destruct (take_key_spec _ _ _ _ E) as (H1 & H2 & H3). exists k', v.
      split; [discriminate|]. split; [exact H1|]. split; [exact H2|]. split; [reflexivity|]. intros a [<-|Ha]; [exact H1|apply H3, Ha].
    - intros H. right. split; [reflexivity|]. destruct (compute tt) as [v|e]; injection H as <- <-.
      + split; [reflexivity|]. intros e He. apply In_firstn' in He. destruct He as [<-|He]; [right; eauto|left; exact He].
      + split; [reflexivity|]. intros e' He. left. exact He.
  Qed.
End Lru.

Section World.
  Context {D : Type} (O : dim_ops D) (deqb : D -> D -> bool) (Hdeq : forall a b, deqb a b = true -> a = b) (hashable : D -> bool).
  Context (lim : limits) (U : unicode).
  Notation caches := (@caches D).
  Notation cached_prepare := (@cached_prepare D lim U).
  Notation cached_reconstruct := (cached_reconstruct O deqb lim).
  Notation cached_analyze := (@cached_analyze D lim U).
  Notation cached_compactify := (@cached_compactify D lim U).
  Notation reachable := (reachable_caches O deqb lim U).

  Record sound (st : caches) : Prop := {
    s_recipes : forall p op ns n id rec, In ((p, op, ns, n), (id, rec)) (c_recipes st) ->
      nth_error (c_made st) id = Some rec /\ exists o, orders_ok o /\ prepare_recipe U o p (op_of_key op) ns n = Ok rec;
    s_cooked : forall id shape sizes k, In ((id, shape, sizes), k) (c_cooked st) ->
      exists rec, nth_error (c_made st) id = Some rec /\ reconstruct O rec shape sizes = Ok k;
    s_analyzed : forall p op v, In ((p, op), v) (c_analyzed st) -> analyze_pattern U p = Ok v;
    s_compact : forall p c, In (p, c) (c_compact st) -> compactify U p = Ok c }.

  Lemma ckey_eqb_eq i sh sz i' sh' sz' : ckey_eqb deqb (i, sh, sz) (i', sh', sz') = true -> i = i' /\ sh = sh' /\ sz = sz'.
  Proof.
    unfold ckey_eqb. intros E. apply andb_true_iff in E as [E E3]. apply andb_true_iff in E as [E1 E2].
    split; [apply Nat.eqb_eq, E1|]. split; [apply (list_eqb_eq deqb Hdeq), E2|].
    apply (list_eqb_eq (size_eqb deqb)); [|exact E3]. intros [a x] [b y] E. unfold size_eqb in E. cbn in E.
    apply andb_true_iff in E as [Ea Ex]. apply str_eqb_eq in Ea. apply Hdeq in Ex. congruence.
  Qed.

  Lemma prepare_sound o p op ns n st r st' : sound st -> orders_ok o -> cached_prepare o (p, op, ns, n) st = (r, st') ->
    sound st' /\ (exists o', orders_ok o' /\ (let* ir := r in Ok (snd ir)) = prepare_recipe U o' p (op_of_key op) ns n) /\
    (forall id rec, r = Ok (id, rec) -> nth_error (c_made st') id = Some rec).
  Proof.
    intros Hs Ho E. unfold Cache.cached_prepare in E.
    destruct (lru rkey_eqb (l_recipes lim) _ _ (c_recipes st)) as [r0 c0] eqn:El. injection E as <- <-.
    apply lru_spec in El as [(k' & [id rec] & Et & Hin & Ek & -> & Hi)|(Et & Er & Hi)].
    - destruct (take_key rkey_eqb (p, op, ns, n) (c_recipes st)) as [tk|]; [|contradiction].
      destruct k' as [[[p' op'] ns'] n']. apply rkey_eqb_op in Ek as (-> & Eop & -> & ->).
      destruct (s_recipes _ Hs _ _ _ _ _ _ Hin) as [H1 (o' & Ho' & H2)]. split; [|split].
      + destruct Hs as [S1 S2 S3 S4]. split; cbn; try assumption. intros q oq nq mq iq rq Hq. apply (S1 _ _ _ _ _ _ (Hi _ Hq)).
      + exists o'. split; [exact Ho'|]. rewrite Eop. cbn. symmetry. exact H2.
      + intros id' rec' E. injection E as <- <-. exact H1.
    - rewrite Et. destruct (prepare_recipe U o p (op_of_key op) ns n) as [rec|e] eqn:Ep; cbn [bind] in Er; subst r0.
      + assert (Hnew : nth_error (c_made st ++ [rec]) (length (c_made st)) = Some rec) by (rewrite nth_error_app2, Nat.sub_diag by lia; reflexivity).
        assert (Hold : forall id x, nth_error (c_made st) id = Some x -> nth_error (c_made st ++ [rec]) id = Some x).
        { intros id x H. rewrite nth_error_app1; [exact H|]. apply nth_error_Some. congruence. }
        split; [|split].
        * destruct Hs as [S1 S2 S3 S4]. split; cbn; try assumption.
          -- intros q oq nq mq iq rq Hq. apply Hi in Hq as [Hq|(v & E1 & E2)].
             ++ destruct (S1 _ _ _ _ _ _ Hq) as [H1 H2]. split; [apply Hold, H1|exact H2].
             ++ injection E2 as <-. injection E1 as -> -> -> -> -> ->. split; [exact Hnew|]. exists o. split; assumption.
          -- intros iq sq zq kq Hq. destruct (S2 _ _ _ _ Hq) as (rq & H1 & H2). exists rq. split; [apply Hold, H1|exact H2].
        * exists o. split; [exact Ho|]. cbn. rewrite Ep. reflexivity.
        * intros id' rec' E. injection E as <- <-. exact Hnew.
      + split; [|split].
        * destruct Hs as [S1 S2 S3 S4]. split; cbn; try assumption. intros q oq nq mq iq rq Hq. apply Hi in Hq as [Hq|(v & E1 & E2)]; [eauto|discriminate].
        * exists o. split; [exact Ho|]. cbn. rewrite Ep. reflexivity.
        * discriminate.
  Qed.

  Lemma reconstruct_sound id rec shape sizes st r st' : sound st -> nth_error (c_made st) id = Some rec ->
    cached_reconstruct (id, rec) shape sizes st = (r, st') -> sound st' /\ r = reconstruct O rec shape sizes /\ c_made st' = c_made st.
  Proof.
    intros Hs Hm E. unfold Cache.cached_reconstruct in E. cbn [fst snd] in E.
    destruct (lru (ckey_eqb deqb) (l_cooked lim) _ _ (c_cooked st)) as [r0 c0] eqn:El. injection E as <- <-.
    apply lru_spec in El as [([[i' sh'] sz'] & k & Et & Hin & Ek & -> & Hi)|(Et & Er & Hi)].
    - apply ckey_eqb_eq in Ek as (-> & -> & ->). destruct (s_cooked _ Hs _ _ _ _ Hin) as (rec' & H1 & H2).
      split; [|split; [congruence|reflexivity]]. destruct Hs as [S1 S2 S3 S4]. split; cbn; try assumption. intros iq sq zq kq Hq. apply (S2 _ _ _ _ (Hi _ Hq)).
    - split; [|split; [exact Er|reflexivity]]. destruct Hs as [S1 S2 S3 S4]. split; cbn; try assumption.
      intros iq sq zq kq Hq. apply Hi in Hq as [Hq|(v & E1 & E2)]; [eauto|]. injection E1 as -> -> -> ->.
      exists rec. split; [exact Hm|]. rewrite Er in E2. exact E2.
  Qed.

  Lemma analyze_sound p op st r st' : sound st -> cached_analyze p op st = (r, st') -> sound st' /\ r = analyze_pattern U p.
  Proof.
    intros Hs E. unfold Cache.cached_analyze in E. destruct (lru _ (l_analyzed lim) _ _ (c_analyzed st)) as [r0 c0] eqn:El. injection E as <- <-.
    apply lru_spec in El as [([p' op'] & v & Et & Hin & Ek & -> & Hi)|(Et & Er & Hi)].
    - cbn in Ek. apply andb_true_iff in Ek as [Ek _]. apply str_eqb_eq in Ek. subst p'. split; [|symmetry; eapply s_analyzed; eauto].
      destruct Hs as [S1 S2 S3 S4]. split; cbn; try assumption. intros q oq vq Hq. apply (S3 _ _ _ (Hi _ Hq)).
    - split; [|exact Er]. destruct Hs as [S1 S2 S3 S4]. split; cbn; try assumption.
      intros q oq vq Hq. apply Hi in Hq as [Hq|(v & E1 & E2)]; [eauto|]. injection E1 as -> -> ->. rewrite Er in E2. exact E2.
  Qed.
  Lemma compactify_sound p st r st' : sound st -> cached_compactify p st = (r, st') -> sound st' /\ r = compactify U p.
  Proof.
    intros Hs E. unfold Cache.cached_compactify in E. destruct (lru _ (l_compact lim) _ _ (c_compact st)) as [r0 c0] eqn:El. injection E as <- <-.
    apply lru_spec in El as [(p' & v & Et & Hin & Ek & -> & Hi)|(Et & Er & Hi)].
    - apply str_eqb_eq in Ek. subst p'. split; [|symmetry; eapply s_compact; eauto].
      destruct Hs as [S1 S2 S3 S4]. split; cbn; try assumption. intros q vq Hq. apply (S4 _ _ (Hi _ Hq)).
    - split; [|exact Er]. destruct Hs as [S1 S2 S3 S4]. split; cbn; try assumption.
      intros q vq Hq. apply Hi in Hq as [Hq|(v & E1 & E2)]; [eauto|]. injection E1 as -> ->. rewrite Er in E2. exact E2.
  Qed.

  Lemma reachable_sound st : reachable st -> sound st.
  Proof.
    induction 1 as [|o [[[p op] ns] n] st _ IH Ho|id rec shape sizes st _ IH Hm|p op st _ IH|p st _ IH|b1 b2 b3 b4 st _ IH].
    - split; cbn; intros; contradiction.
    - destruct (cached_prepare o (p, op, ns, n) st) as [r st'] eqn:E. apply prepare_sound in E as (E & _); assumption.
    - destruct (cached_reconstruct (id, rec) shape sizes st) as [r st'] eqn:E. apply reconstruct_sound in E as (E & _); assumption.
    - destruct (cached_analyze p op st) as [r st'] eqn:E. apply analyze_sound in E as (E & _); assumption.
    - destruct (cached_compactify p st) as [r st'] eqn:E. apply compactify_sound in E as (E & _); assumption.
    - destruct IH as [S1 S2 S3 S4]. split; cbn.
      + destruct b1; cbn; [contradiction|exact S1].
      + destruct b2; cbn; [contradiction|exact S2].
      + destruct b3; cbn; [contradiction|exact S3].
      + destruct b4; cbn; [contradiction|exact S4].
  Qed.

  Lemma opkey_of_op {T} (red : reduction T) id k : opkey_of red id = Some k -> op_of_key k = op_of red.
  Proof. destruct red as [s|f]; cbn; [intros E; injection E as <-; reflexivity|]. destruct id; [|discriminate]. intros E. injection E as <-. reflexivity. Qed.

  Lemma cooked_for_spec {T} (B : backend T D) id rec tensor sizes st k st' : reachable st -> nth_error (c_made st) id = Some rec ->
    cooked_for O deqb hashable lim B (id, rec) tensor sizes st = (k, st') -> reachable st' /\ k = reconstruct O rec (b_shape B tensor) sizes.
  Proof.
    intros Hr Hm E. unfold cooked_for in E. destruct (key_hashable hashable (b_shape B tensor) sizes).
    - destruct (cached_reconstruct (id, rec) (b_shape B tensor) sizes st) as [r0 st0] eqn:Ec.
      assert (Hr' : reachable st0) by (assert (X := RC_reconstruct O deqb lim U id rec (b_shape B tensor) sizes st Hr Hm); rewrite Ec in X; exact X).
      apply reconstruct_sound in Ec as (_ & -> & _); [|apply reachable_sound, Hr|exact Hm].
      destruct (reconstruct O rec (b_shape B tensor) sizes) as [k0|e] eqn:Er; [injection E as <- <-; auto|].
      destruct e; injection E as <- <-; (split; [exact Hr'|]); auto; exact Er.
    - injection E as <- <-. auto.
  Qed.

  (** the generic function *)
  Theorem cached_api_reduce_spec {T} (B : backend T D) o x pattern (red : reduction T) id sizes st r st' :
    reachable st -> orders_ok o -> opkey_of red id <> None ->
    cached_api_reduce O deqb hashable lim U o B x pattern red id sizes st = (r, st') ->
    reachable st' /\ exists o', orders_ok o' /\ r = api_reduce U o' O B x pattern red sizes.
  Proof.
    intros Hr Ho Hk E. unfold cached_api_reduce in E. unfold api_reduce.
    destruct (check_kwargs reserved_kwargs sizes) as [[]|e]; cbn [bind] in *; [|injection E as <- <-; split; [exact Hr|exists o; auto]].
    destruct (stack_input B x) as [tensor|e]; [|injection E as <- <-; split; [exact Hr|exists o; auto]].
    destruct (opkey_of red id) as [op|] eqn:Eop; [|contradiction]. apply opkey_of_op in Eop.
    destruct (cached_prepare o (pattern, op, map fst sizes, length (b_shape B tensor)) st) as [r1 st1] eqn:E1.
    assert (Hr1 : reachable st1) by (assert (X := RC_prepare O deqb lim U o (pattern, op, map fst sizes, length (b_shape B tensor)) st Hr Ho); rewrite E1 in X; exact X).
    apply prepare_sound in E1 as (_ & (o' & Ho' & E1) & Hm); [|apply reachable_sound, Hr|exact Ho]. rewrite Eop in E1.
    destruct r1 as [[i rec]|e].
    - specialize (Hm i rec eq_refl). cbn in E1. destruct (cooked_for O deqb hashable lim B (i, rec) tensor sizes st1) as [k st2] eqn:E2.
      apply cooked_for_spec in E2 as [Hr2 ->]; [|exact Hr1|exact Hm]. injection E as <- <-. split; [exact Hr2|].
      exists o'. split; [exact Ho'|]. cbn [bind]. rewrite <- E1. reflexivity.
    - cbn [bind snd] in E1. injection E as <- <-. split; [exact Hr1|]. exists o'. split; [exact Ho'|]. cbn [bind]. rewrite <- E1. reflexivity.
  Qed.
End World.

Section Calls.
  Context (lim : limits) {A : Type} (r : runtime A) (Hok : runtime_ok r).
  Notation reachable := (reachable_caches int_ops Z.eqb lim (rt_unicode r)).
  Lemma zeq a b : Z.eqb a b = true -> a = b.
  Proof. apply Z.eqb_eq. Qed.

  Lemma reduce_cached x pattern red id sizes st v st' : reachable st -> NoDup (map fst sizes) -> opkey_of red id <> None ->
    cached_reduce lim r x pattern red id sizes st = (v, st') -> reachable st' /\ v = reduce r x pattern red sizes.
  Proof.
    intros Hr Hn Hk E. unfold cached_reduce in E.
    apply (cached_api_reduce_spec int_ops Z.eqb zeq) in E as (Hr' & o' & Ho' & ->); [|exact Hr|apply Hok|exact Hk]. split; [exact Hr'|].
    destruct (orders_irrelevant r Hok o' sizes Ho' Hn x pattern) as (_ & _ & H & _). symmetry. apply H.
  Qed.
  Lemma rearrange_cached x pattern sizes st v st' : reachable st -> NoDup (map fst sizes) ->
    cached_rearrange lim r x pattern sizes st = (v, st') -> reachable st' /\ v = rearrange r x pattern sizes.
  Proof. intros Hr Hn E. apply (reduce_cached x pattern (RStr s_rearrange) None sizes st v st'); auto. discriminate. Qed.
  Lemma repeat_cached x pattern sizes st v st' : reachable st -> NoDup (map fst sizes) ->
    cached_repeat lim r x pattern sizes st = (v, st') -> reachable st' /\ v = repeat_ r x pattern sizes.
  Proof. intros Hr Hn E. apply (reduce_cached x pattern (RStr s_repeat) None sizes st v st'); auto. discriminate. Qed.

  Lemma xp_reduce_cached x pattern red id sizes st v st' : reachable st -> NoDup (map fst sizes) -> opkey_of red id <> None ->
    cached_xp_reduce lim r x pattern red id sizes st = (v, st') -> reachable st' /\ v = xp_reduce_ r x pattern red sizes.
  Proof.
    intros Hr Hn Hk E.
    assert (G : reachable st' /\ exists o', orders_ok o' /\ v = aa_reduce (rt_unicode r) o' (rt_ns r) x pattern red sizes).
    { unfold cached_xp_reduce in E. unfold aa_reduce. assert (Ho := ro_orders _ Hok).
      destruct (check_kwargs reserved_kwargs sizes) as [[]|e]; cbn [bind] in *; [|injection E as <- <-; split; [exact Hr|exists (rt_orders r); auto]].
      destruct (stack_input_array_api (rt_ns r) x) as [tensor|e]; [|injection E as <- <-; split; [exact Hr|exists (rt_orders r); auto]].
      destruct (opkey_of red id) as [op|] eqn:Eop; [|contradiction]. apply opkey_of_op in Eop.
      set (key := (pattern, op, map fst sizes, length (xp_shape (rt_ns r) tensor))) in *.
      destruct (cached_prepare lim (rt_unicode r) (rt_orders r) key st) as [r1 st1] eqn:E1.
      assert (Hr1 : reachable st1) by (assert (X := RC_prepare int_ops Z.eqb lim (rt_unicode r) (rt_orders r) key st Hr Ho); rewrite E1 in X; exact X).
      apply (prepare_sound int_ops) in E1 as (_ & (o' & Ho' & E1) & Hm); [|apply (reachable_sound int_ops Z.eqb zeq lim), Hr|exact Ho]. rewrite Eop in E1.
      destruct r1 as [[i rec]|e].
      - specialize (Hm i rec eq_refl). cbn [bind snd] in E1.
        destruct (cached_reconstruct int_ops Z.eqb lim (i, rec) (xp_shape (rt_ns r) tensor) sizes st1) as [k st2] eqn:E2.
        assert (Hr2 : reachable st2) by (assert (X := RC_reconstruct int_ops Z.eqb lim (rt_unicode r) i rec (xp_shape (rt_ns r) tensor) sizes st1 Hr1 Hm); rewrite E2 in X; exact X).
        apply (reconstruct_sound int_ops Z.eqb zeq lim (rt_unicode r)) in E2 as (_ & -> & _); [|apply (reachable_sound int_ops Z.eqb zeq lim), Hr1|exact Hm]. injection E as <- <-. split; [exact Hr2|].
        exists o'. split; [exact Ho'|]. cbn [bind]. rewrite <- E1. reflexivity.
      - cbn [bind snd] in E1. injection E as <- <-. split; [exact Hr1|]. exists o'. split; [exact Ho'|]. cbn [bind]. rewrite <- E1. reflexivity. }
    destruct G as (G & o' & Ho' & ->). split; [exact G|].
    destruct (orders_irrelevant r Hok o' sizes Ho' Hn x pattern) as (_ & _ & _ & _ & _ & H). symmetry. apply H.
  Qed.

  Lemma analyze_reach p op st : reachable st ->
    exists st', cached_analyze lim (rt_unicode r) p op st = (analyze_pattern (rt_unicode r) p, st') /\ reachable st'.
  Proof.
    intros Hr. destruct (cached_analyze lim (rt_unicode r) p op st) as [a st1] eqn:E. exists st1.
    assert (X := RC_analyze int_ops Z.eqb lim (rt_unicode r) p op st Hr). rewrite E in X. split; [|exact X].
    apply (analyze_sound int_ops) in E as [_ ->]; [reflexivity|apply (reachable_sound int_ops Z.eqb zeq lim), Hr].
  Qed.
  Lemma packing_cached st : reachable st ->
    (forall ts p v st', cached_pack lim r ts p st = (v, st') -> reachable st' /\ v = pack r ts p) /\
    (forall x ps p v st', cached_unpack lim r x ps p st = (v, st') -> reachable st' /\ v = unpack r x ps p) /\
    (forall ts p v st', cached_xp_pack lim r ts p st = (v, st') -> reachable st' /\ v = xp_pack r ts p) /\
    (forall x ps p v st', cached_xp_unpack lim r x ps p st = (v, st') -> reachable st' /\ v = xp_unpack r x ps p).
  Proof.
    intros Hr. unfold cached_pack, cached_unpack, cached_xp_pack, cached_xp_unpack.
    split; [|split; [|split]].
    - intros ts p v st'. destruct (analyze_reach p (lit "pack") st Hr) as (st1 & -> & H1). intros E. injection E as <- <-. auto.
    - intros x ps p v st'. destruct (analyze_reach p (lit "unpack") st Hr) as (st1 & -> & H1). intros E. injection E as <- <-. auto.
    - intros ts p v st'. destruct (analyze_reach p (lit "pack") st Hr) as (st1 & -> & H1). intros E. injection E as <- <-. auto.
    - intros x ps p v st'. destruct (analyze_reach p (lit "unpack") st Hr) as (st1 & -> & H1). intros E. injection E as <- <-. auto.
  Qed.

  Lemma einsum_cached {T} (lib : pystr -> list T -> result T) args st v st' : reachable st ->
    cached_einsum lim r lib args st = (v, st') -> reachable st' /\ v = einsum_with (rt_unicode r) lib args.
  Proof.
    intros Hr E. unfold cached_einsum in E. unfold einsum_with, einsum_given in *.
    destruct (last args (inr [])) as [t|pattern].
    - injection E as <- <-. auto.
    - destruct (length args <=? 1); [injection E as <- <-; auto|].
      destruct (cached_compactify lim (rt_unicode r) pattern st) as [c st1] eqn:Ec.
      assert (X := RC_compactify int_ops Z.eqb lim (rt_unicode r) pattern st Hr). rewrite Ec in X.
      apply (compactify_sound int_ops) in Ec as [_ ->]; [|apply (reachable_sound int_ops Z.eqb zeq lim), Hr]. injection E as <- <-. auto.
  Qed.
End Calls.

Section History.
  Context (lim : limits) {A : Type} (U : unicode).
  Lemma history (cs : list (runtime A * call A)) st :
    (forall r c, In (r, c) cs -> runtime_ok r /\ rt_unicode r = U /\ call_ok c) -> reachable_caches int_ops Z.eqb lim U st ->
    serve_all lim cs st = map (fun '(r, c) => compute r c) cs.
  Proof.
    revert st. induction cs as [|[r c] cs IH]; intros st H Hr; cbn [serve_all map]; [reflexivity|].
    destruct (H r c (or_introl eq_refl)) as (Hok & HU & Hc).
    assert (G : forall v st', serve lim r c st = (v, st') -> reachable_caches int_ops Z.eqb lim U st' /\ v = compute r c).
    { intros v st' E. rewrite <- HU in *. destruct c as [x p red id sizes|x p red id sizes|ts p|x ps p|ts p|x ps p|lib args]; cbn [serve compute call_ok] in *.
      - destruct Hc as [Hn Hk]. destruct (cached_reduce lim r x p red id sizes st) as [v0 st0] eqn:E0. apply (reduce_cached lim r Hok) in E0 as [H1 ->]; auto. injection E as <- <-. auto.
      - destruct Hc as [Hn Hk]. destruct (cached_xp_reduce lim r x p red id sizes st) as [v0 st0] eqn:E0. apply (xp_reduce_cached lim r Hok) in E0 as [H1 ->]; auto. injection E as <- <-. auto.
      - destruct (cached_pack lim r ts p st) as [v0 st0] eqn:E0. apply (packing_cached lim r st Hr) in E0 as [H1 ->]. injection E as <- <-. auto.
      - destruct (cached_unpack lim r x ps p st) as [v0 st0] eqn:E0. apply (packing_cached lim r st Hr) in E0 as [H1 ->]. injection E as <- <-. auto.
      - destruct (cached_xp_pack lim r ts p st) as [v0 st0] eqn:E0. apply (packing_cached lim r st Hr) in E0 as [H1 ->]. injection E as <- <-. auto.
      - destruct (cached_xp_unpack lim r x ps p st) as [v0 st0] eqn:E0. apply (packing_cached lim r st Hr) in E0 as [H1 ->]. injection E as <- <-. auto.
      - destruct (cached_einsum lim r lib args st) as [v0 st0] eqn:E0. apply (einsum_cached lim r) in E0 as [H1 ->]; auto. injection E as <- <-. auto. }
    destruct (serve lim r c st) as [v st'] eqn:E. destruct (G v st' eq_refl) as [Hr' ->]. f_equal. apply IH; [|exact Hr'].
    intros r' c' Hin. apply H. right. exact Hin.
  Qed.
End History.
